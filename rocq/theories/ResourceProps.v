(** C58, C59, C78. *)
From Coq Require Import String List NArith Bool.
From stdpp Require Import base list gmap.
From Verif Require Import Str StrProofs ResourceModel.
Import ListNotations.

(** * Specification *)
(** The value of the last pair with key [k]. *)
Definition last_value {V} (kvs : list (str * V)) (k : str) : option V :=
  option_map snd (List.find (fun kv => str_eqb (fst kv) k) (rev kvs)).
(** The first of two that is there. *)
Definition or_else {A} (x y : option A) : option A := match x with Some _ => x | None => y end.

Section lemmas.
Context {V : Type} (vstr : str -> V).
Notation resource := (@resource V).

Lemma insert_all_union : forall m other : gmap (list N) V, insert_all m other = other ∪ m.
Proof.
  intros m other. unfold insert_all.
  apply (map_fold_ind (fun (r : gmap (list N) V) (o : gmap (list N) V) => r = o ∪ m)); [symmetry; apply (left_id_L ∅ _)|].
  intros k v o r Hk ->. apply insert_union_l.
Qed.
Lemma insert_all_lookup : forall (m other : gmap (list N) V) k, insert_all m other !! k = or_else (other !! k) (m !! k).
Proof.
  intros m other k. rewrite insert_all_union. unfold or_else. destruct (other !! k) as [v|] eqn:E.
  - apply lookup_union_Some_l. exact E.
  - apply lookup_union_r. exact E.
Qed.
Lemma blank_iff : forall r : resource, is_blank r = true <-> r = res_empty.
Proof.
  intros [m u]. unfold is_blank. cbn [r_attrs r_url]. split.
  - destruct (map_to_list m) as [|p l] eqn:E; [|discriminate]. destruct u; [discriminate|]. intros _.
    apply map_to_list_empty_iff in E. subst m. reflexivity.
  - intros E. injection E as -> ->. rewrite map_to_list_empty. reflexivity.
Qed.
Lemma fold_insert_lookup : forall kvs (m : gmap (list N) V) k,
  fold_left (fun m kv => <[fst kv := snd kv]> m) kvs m !! k = or_else (last_value kvs k) (m !! k).
Proof.
  induction kvs as [|[k0 v] kvs IH]; intros m k; [reflexivity|]. cbn [fold_left]. rewrite IH. cbn [fst snd].
  unfold last_value. cbn [rev]. clear IH.
  assert (Hf : forall l, List.find (fun kv : str * V => str_eqb (fst kv) k) (l ++ [(k0, v)]) =
    or_else (List.find (fun kv => str_eqb (fst kv) k) l) (if str_eqb k0 k then Some (k0, v) else None)).
  { induction l as [|x l IH]; cbn [List.find app fst]; [destruct (str_eqb k0 k); reflexivity|]. destruct (str_eqb (fst x) k); [reflexivity|exact IH]. }
  rewrite Hf. destruct (List.find _ (rev kvs)) as [[k1 v1]|]; cbn [or_else option_map]; [reflexivity|].
  destruct (str_eqb_spec k0 k) as [-> |Hn]; cbn [option_map or_else].
  - apply lookup_insert.
  - apply lookup_insert_ne. exact Hn.
Qed.
Lemma of_kvs_lookup : forall (kvs : list (str * V)) k, of_kvs kvs !! k = last_value kvs k.
Proof. intros. unfold of_kvs. rewrite fold_insert_lookup, lookup_empty. destruct (last_value kvs k); reflexivity. Qed.
Lemma merge_attrs : forall a b : resource, r_attrs (merge a b) = r_attrs b ∪ r_attrs a.
Proof.
  intros a b. unfold merge. destruct (is_blank a) eqn:Ea.
  - apply blank_iff in Ea. subst a. cbn. symmetry. apply (right_id_L ∅ _).
  - destruct (is_blank b) eqn:Eb.
    + apply blank_iff in Eb. subst b. cbn. symmetry. apply (left_id_L ∅ _).
    + cbn. apply insert_all_union.
Qed.
Lemma merge_lookup : forall (a b : resource) k, r_attrs (merge a b) !! k = or_else (r_attrs b !! k) (r_attrs a !! k).
Proof. intros a b k. rewrite merge_attrs, <- insert_all_union. apply insert_all_lookup. Qed.
Lemma merge_url_eq : forall a b : resource, r_url (merge a b) =
  match r_url a, r_url b with
  | Some u, Some v => if str_eqb u v then Some u else None
  | None, u | u, None => u
  end.
Proof.
  intros a b. unfold merge. destruct (is_blank a) eqn:Ea.
  - apply blank_iff in Ea. subst a. reflexivity.
  - destruct (is_blank b) eqn:Eb.
    + apply blank_iff in Eb. subst b. cbn. destruct (r_url a); reflexivity.
    + cbn. destruct (r_url a), (r_url b); reflexivity.
Qed.
Lemma res_ext : forall a b : resource, (forall k, r_attrs a !! k = r_attrs b !! k) -> r_url a = r_url b -> a = b.
Proof. intros [m u] [m' u'] H E. cbn in *. subst u'. f_equal. apply map_eq. exact H. Qed.
End lemmas.

(** * C58 *)
(** The other resource's value wins, then this one's; nothing else appears. *)
Theorem C58_right_biased_union : forall V (a b : @resource V) k,
  r_attrs (merge a b) !! k = (match r_attrs b !! k with Some v => Some v | None => r_attrs a !! k end).
Proof. intros V a b k. rewrite merge_lookup. unfold or_else. destruct (r_attrs b !! k); reflexivity. Qed.
Print Assumptions C58_right_biased_union.

Theorem C58_laws : forall V (a b c : @resource V),
  r_attrs (merge a (merge b c)) = r_attrs (merge (merge a b) c) /\
  merge a a = a /\ merge a res_empty = a /\ merge res_empty a = a.
Proof.
  intros V a b c. split; [|split; [|split]].
  - rewrite !merge_attrs. symmetry. apply (assoc_L (∪)).
  - apply res_ext; [intros k; rewrite merge_lookup; unfold or_else; destruct (r_attrs a !! k); reflexivity|].
    rewrite merge_url_eq. destruct (r_url a) as [u|]; [rewrite str_eqb_refl|]; reflexivity.
  - apply res_ext; [intros k; rewrite merge_lookup; cbn; rewrite lookup_empty; reflexivity|].
    rewrite merge_url_eq. destruct (r_url a); reflexivity.
  - apply res_ext; [intros k; rewrite merge_lookup; cbn; rewrite lookup_empty; unfold or_else; destruct (r_attrs a !! k); reflexivity|].
    rewrite merge_url_eq. destruct (r_url a); reflexivity.
Qed.
Print Assumptions C58_laws.

(** The schema URL of a merge is [u] exactly when one side has [u] and the other has [u]
    or none. *)
Theorem C58_schema_url : forall V (a b : @resource V) u,
  r_url (merge a b) = Some u <->
  (r_url a = Some u /\ (r_url b = Some u \/ r_url b = None)) \/ (r_url a = None /\ r_url b = Some u).
Proof.
  intros V a b u. rewrite merge_url_eq. destruct (r_url a) as [x|], (r_url b) as [y|]; split; intros H; try discriminate.
  - destruct (str_eqb_spec x y) as [-> |]; [|discriminate]. injection H as ->. auto.
  - destruct H as [[H1 [H2|H2]]|[H1 H2]]; try discriminate. injection H1 as ->. injection H2 as ->. now rewrite str_eqb_refl.
  - auto.
  - destruct H as [[H1 _]|[H1 _]]; [exact H1|discriminate].
  - auto.
  - destruct H as [[H1 _]|[_ H2]]; [discriminate|exact H2].
  - destruct H as [[H1 _]|[_ H2]]; discriminate.
Qed.
Print Assumptions C58_schema_url.

(** The schema URL rule is not associative: a conflict is forgotten by the next merge. *)
Theorem C136_schema_url_associative_refuted : ~ (forall (a b c : @resource N), merge a (merge b c) = merge (merge a b) c).
Proof.
  intros H. specialize (H (mk_res ∅ (Some [1%N])) (mk_res ∅ (Some [2%N])) (mk_res ∅ (Some [2%N]))).
  apply (f_equal r_url) in H. vm_compute in H. discriminate.
Qed.
Print Assumptions C136_schema_url_associative_refuted.

(** What the builder's calls do to one attribute and to the URL.  [with_schema_url] gives
    the attributes already present priority over the ones it is passed. *)
Theorem C58_builder : forall V (r : @resource V) kvs url ds (k : list N),
  r_attrs (with_attributes r kvs) !! k = or_else (last_value kvs k) (r_attrs r !! k) /\
  r_url (with_attributes r kvs) = r_url r /\
  r_attrs (with_schema_url r kvs url) !! k = or_else (r_attrs r !! k) (last_value kvs k) /\
  (url = [] -> r_url (with_schema_url r kvs url) = r_url r) /\
  (url <> [] -> r_url (with_schema_url r kvs url) = match r_url r with Some u => if str_eqb url u then Some u else None | None => Some url end) /\
  r_attrs (with_detectors r ds) !! k = or_else (List.hd_error (flat_map (fun d => match r_attrs d !! k with Some v => [v] | None => [] end) (rev ds))) (r_attrs r !! k) /\
  r_url (with_detectors r ds) = r_url r.
Proof.
  intros V r kvs url ds k. unfold with_attributes, with_schema_url, with_detectors. rewrite !merge_lookup, !merge_url_eq.
  cbn [r_attrs r_url res_new from_schema_url]. rewrite !of_kvs_lookup.
  split; [reflexivity|]. split; [destruct (r_url r); reflexivity|]. split; [reflexivity|].
  split; [intros ->; destruct (r_url r); reflexivity|].
  split; [intros Hu; destruct url as [|c url]; [contradiction|]; destruct (r_url r) as [u|]; [|reflexivity]|].
  { destruct (str_eqb_spec (c :: url) u) as [<- |]; reflexivity. }
  assert (H : forall ds (r0 : @resource V), r_url (fold_left (fun r d => mk_res (insert_all (r_attrs r) (r_attrs d)) (r_url r)) ds r0) = r_url r0 /\
    r_attrs (fold_left (fun r d => mk_res (insert_all (r_attrs r) (r_attrs d)) (r_url r)) ds r0) !! k =
    or_else (List.hd_error (flat_map (fun d => match r_attrs d !! k with Some v => [v] | None => [] end) (rev ds))) (r_attrs r0 !! k)).
  { clear. induction ds as [|d ds IH]; intros r0; [split; reflexivity|]. cbn [fold_left rev].
    destruct (IH (mk_res (insert_all (r_attrs r0) (r_attrs d)) (r_url r0))) as [-> ->]. cbn [r_url r_attrs]. split; [reflexivity|].
    rewrite insert_all_lookup, flat_map_app. cbn [flat_map].
    destruct (flat_map _ (rev ds)) as [|x l]; cbn [List.hd_error app or_else]; [|reflexivity].
    destruct (r_attrs d !! k); reflexivity. }
  destruct (H ds res_empty) as [Hu Hl]. unfold from_detectors. rewrite Hu, Hl. cbn [res_empty r_url r_attrs]. rewrite lookup_empty.
  split; [|destruct (r_url r); reflexivity].
  destruct (List.hd_error _); reflexivity.
Qed.
Print Assumptions C58_builder.

Example C58_nonvacuous :
  let a := mk_res (of_kvs [([1%N], 10%N); ([2%N], 20%N)]) (Some [7%N]) in
  let b := mk_res (of_kvs [([2%N], 21%N); ([3%N], 30%N)]) None in
  map (fun k => r_attrs (merge a b) !! k) [[1%N]; [2%N]; [3%N]; [4%N]] = [Some 10; Some 21; Some 30; None]%N /\ r_url (merge a b) = Some [7%N].
Proof. vm_compute. auto. Qed.

(** * C59 and C78 *)
Section env.
Context {V : Type} (vstr : str -> V).
Lemma env_detect_lookup : forall s k, r_attrs (env_detect vstr (Some s)) !! k = last_value (filter_map (parse_entry vstr) (split_terminator 44%N s)) k.
Proof.
  intros [|c s] k; [reflexivity|]. cbn [env_detect]. unfold construct_otel_resources, with_attributes. rewrite merge_lookup. cbn [res_new res_empty r_attrs].
  rewrite of_kvs_lookup, lookup_empty. destruct (last_value _ k); reflexivity.
Qed.

Lemma default_lookup : forall version service attrs k,
  r_attrs (default_resource vstr version service attrs) !! k =
  or_else (r_attrs (env_detect vstr attrs) !! k)
    (or_else (r_attrs (telemetry_detect vstr version) !! k) (r_attrs (sdk_detect vstr service attrs) !! k)).
Proof.
  intros. unfold default_resource, from_detectors. cbn [fold_left r_attrs res_empty]. rewrite !insert_all_lookup, lookup_empty.
  destruct (r_attrs (sdk_detect vstr service attrs) !! k); reflexivity.
Qed.
End env.

(** What the environment says the service is called. *)
Definition name_from_attrs {V} (vstr : str -> V) (attrs : option str) : option V := r_attrs (env_detect vstr attrs) !! (of_string "service.name" : list N).

(** C116 is false: a [service.name] in OTEL_RESOURCE_ATTRIBUTES overrides
    OTEL_SERVICE_NAME. *)
Theorem C116_service_name_priority_refuted : ~ (forall version c s attrs,
  r_attrs (default_resource id version (Some (c :: s)) attrs) !! (of_string "service.name" : list N) = Some (c :: s)).
Proof.
  intros H. specialize (H [] 97%N [] (Some (of_string "service.name=b"))). vm_compute in H. discriminate.
Qed.
Print Assumptions C116_service_name_priority_refuted.

(** The name the default resource really gets, for all environments; OTEL_SERVICE_NAME
    has its priority when OTEL_RESOURCE_ATTRIBUTES gives no name. *)
Theorem C59_service_name : forall V (vstr : str -> V) version service attrs,
  r_attrs (default_resource vstr version service attrs) !! (of_string "service.name" : list N) =
  Some (match name_from_attrs vstr attrs, service with
        | Some v, _ => v
        | None, Some (c :: s) => vstr (c :: s)
        | None, _ => vstr (of_string "unknown_service")
        end).
Proof.
  intros V vstr version service attrs. rewrite default_lookup. unfold name_from_attrs. change (of_string "service.name") with SERVICE_NAME.
  destruct (r_attrs (env_detect vstr attrs) !! SERVICE_NAME) as [v|] eqn:E; [reflexivity|]. cbn [or_else].
  assert (Et : r_attrs (telemetry_detect vstr version) !! SERVICE_NAME = None).
  { unfold telemetry_detect, with_attributes. rewrite merge_lookup. cbn [res_new res_empty r_attrs]. rewrite of_kvs_lookup, lookup_empty.
    unfold last_value. cbn [rev app List.find fst].
    replace (str_eqb (of_string "telemetry.sdk.version") SERVICE_NAME) with false by reflexivity.
    replace (str_eqb (of_string "telemetry.sdk.language") SERVICE_NAME) with false by reflexivity.
    replace (str_eqb (of_string "telemetry.sdk.name") SERVICE_NAME) with false by reflexivity. reflexivity. }
  rewrite Et. cbn [or_else]. unfold sdk_detect, with_attributes. rewrite merge_lookup. cbn [res_new res_empty r_attrs]. rewrite of_kvs_lookup, lookup_empty.
  unfold last_value. cbn [rev app List.find fst]. rewrite str_eqb_refl. cbn [option_map snd or_else]. rewrite E. reflexivity.
Qed.
Print Assumptions C59_service_name.

(** The SDK's detector on its own does give OTEL_SERVICE_NAME its priority, then the
    attribute list, then the fallback. *)
Theorem C59_sdk_detector : forall V (vstr : str -> V) service attrs,
  let name := r_attrs (sdk_detect vstr service attrs) !! (of_string "service.name" : list N) in
  (forall s, service = Some s -> s <> [] -> name = Some (vstr s)) /\
  (service = None \/ service = Some [] ->
    (forall v, name_from_attrs vstr attrs = Some v -> name = Some v) /\
    (name_from_attrs vstr attrs = None -> name = Some (vstr (of_string "unknown_service")))) /\
  (forall k, k <> (of_string "service.name" : list N) -> r_attrs (sdk_detect vstr service attrs) !! k = None).
Proof.
  change (of_string "service.name") with SERVICE_NAME. intros V vstr service attrs name.
  assert (L : forall k : list N, r_attrs (sdk_detect vstr service attrs) !! k = if str_eqb SERVICE_NAME k then Some (match service with Some (c :: s) => vstr (c :: s) | _ =>
     match name_from_attrs vstr attrs with Some v => v | None => vstr (of_string "unknown_service") end end) else None).
  { intros k. unfold sdk_detect, with_attributes. rewrite merge_lookup. cbn [res_new res_empty r_attrs]. rewrite of_kvs_lookup, lookup_empty. unfold last_value. cbn [rev app List.find fst].
    destruct (str_eqb SERVICE_NAME k); reflexivity. }
  subst name. cbv zeta. pose proof (L SERVICE_NAME) as L0. rewrite str_eqb_refl in L0. rewrite L0. split; [|split].
  - intros s -> Hs. destruct s; [contradiction|reflexivity].
  - intros [-> | ->]; (split; [intros v ->; reflexivity|intros ->; reflexivity]).
  - intros k Hk. rewrite L. destruct (str_eqb SERVICE_NAME k) eqn:E; [|reflexivity]. apply str_eqb_eq in E. congruence.
Qed.
Print Assumptions C59_sdk_detector.

(** The telemetry.sdk.* attributes are set unless the environment overrides them. *)
Theorem C59_sdk_attributes : forall V (vstr : str -> V) version service attrs (k : list N) v,
  In (k, v) [(of_string "telemetry.sdk.name", of_string "opentelemetry"); (of_string "telemetry.sdk.language", of_string "rust"); (of_string "telemetry.sdk.version", version)] ->
  r_attrs (default_resource vstr version service attrs) !! k = Some (match r_attrs (env_detect vstr attrs) !! k with Some w => w | None => vstr v end).
Proof.
  intros V vstr version service attrs k v Hin. rewrite default_lookup. destruct (r_attrs (env_detect vstr attrs) !! k) as [w|]; [reflexivity|]. cbn [or_else].
  unfold telemetry_detect, with_attributes. rewrite merge_lookup. cbn [res_new res_empty r_attrs]. rewrite of_kvs_lookup, lookup_empty.
  destruct Hin as [E|[E|[E|[]]]]; injection E as <- <-; reflexivity.
Qed.
Print Assumptions C59_sdk_attributes.

Example C59_nonvacuous :
  r_attrs (default_resource id [49%N] (Some (of_string "svc")) (Some (of_string "a=b"))) !! SERVICE_NAME = Some (of_string "svc") /\
  r_attrs (default_resource id [49%N] None (Some (of_string "service.name=x"))) !! SERVICE_NAME = Some (of_string "x") /\
  r_attrs (default_resource id [49%N] None None) !! SERVICE_NAME = Some (of_string "unknown_service").
Proof. vm_compute. auto. Qed.

(** ** C78: the OTEL_RESOURCE_ATTRIBUTES list *)
(** A list as a user writes it: entries separated by commas, an entry being a key, "=",
    a value, with white space around both, or something without "=". *)
Inductive entry := Pair (w1 k w2 w3 v w4 : str) | Junk (s : str).
Definition blank (s : str) : Prop := Forall (fun c => is_ws c = true) s.
(** No white space at either end. *)
Definition tight (s : str) : Prop :=
  match s with c :: _ => is_ws c = false | [] => True end /\ match rev s with c :: _ => is_ws c = false | [] => True end.
Definition good (e : entry) : Prop :=
  match e with
  | Pair w1 k w2 w3 v w4 => blank w1 /\ blank w2 /\ blank w3 /\ blank w4 /\ tight k /\ tight v /\
      ~ In 61%N k /\ ~ In 44%N k /\ ~ In 44%N v
  | Junk s => ~ In 61%N s /\ ~ In 44%N s
  end.
Definition write (e : entry) : str :=
  match e with Pair w1 k w2 w3 v w4 => (w1 ++ k ++ w2) ++ 61%N :: (w3 ++ v ++ w4) | Junk s => s end.
Definition pairs (es : list entry) : list (str * str) :=
  flat_map (fun e => match e with Pair _ k _ _ v _ => [(k, v)] | Junk _ => [] end) es.

Lemma blank_lacks : forall s c, blank s -> is_ws c = false -> ~ In c s.
Proof. intros s c Hb Hc Hin. unfold blank in Hb. rewrite List.Forall_forall in Hb. specialize (Hb _ Hin). congruence. Qed.
Lemma drop_blank : forall w s, blank w -> drop_while is_ws (w ++ s) = drop_while is_ws s.
Proof. induction w as [|c w IH]; intros s H; [reflexivity|]. inversion H as [|x y Hx Hy]; subst. cbn [app drop_while]. rewrite Hx. apply IH. exact Hy. Qed.
Lemma trim_pad : forall w1 s w2, blank w1 -> blank w2 -> tight s -> trim (w1 ++ s ++ w2) = s.
Proof.
  intros w1 s w2 H1 H2 [Ht1 Ht2]. unfold trim, trim_start, trim_end. rewrite drop_blank by exact H1.
  destruct s as [|c s].
  - cbn [app]. rewrite <- (app_nil_r w2), drop_blank by exact H2. reflexivity.
  - rewrite (drop_while_id _ ((c :: s) ++ w2)) by exact Ht1. rewrite rev_app_distr.
    rewrite drop_blank by (unfold blank; apply List.Forall_rev; exact H2).
    rewrite drop_while_id by exact Ht2. apply rev_involutive.
Qed.
Lemma good_lacks_comma : forall e, good e -> lacks 44%N (write e).
Proof.
  intros [w1 k w2 w3 v w4|s]; cbn [good write].
  - intros (H1 & H2 & H3 & H4 & _ & _ & _ & Hk & Hv) Hin.
    assert (Hb : forall w, blank w -> ~ In 44%N w) by (intros w Hw; apply blank_lacks; [exact Hw|reflexivity]).
    rewrite !in_app_iff in Hin. cbn [In] in Hin. rewrite !in_app_iff in Hin.
    pose proof (Hb _ H1). pose proof (Hb _ H2). pose proof (Hb _ H3). pose proof (Hb _ H4). intuition discriminate.
  - intros [_ H]. exact H.
Qed.
Lemma parse_good : forall V (vstr : str -> V) e, good e ->
  parse_entry vstr (write e) = match e with Pair _ k _ _ v _ => Some (k, vstr v) | Junk _ => None end.
Proof.
  intros V vstr [w1 k w2 w3 v w4|s]; cbn [good write]; unfold parse_entry.
  - intros (H1 & H2 & H3 & H4 & Hk & Hv & He & _ & _).
    rewrite split_once_app; [rewrite !trim_pad by assumption; reflexivity|].
    intros Hin. assert (Hb : forall w, blank w -> ~ In 61%N w) by (intros w Hw; apply blank_lacks; [exact Hw|reflexivity]).
    rewrite !in_app_iff in Hin. pose proof (Hb _ H1). pose proof (Hb _ H2). intuition.
  - intros [H _]. rewrite split_once_lacks by exact H. reflexivity.
Qed.
Lemma parse_entries : forall V (vstr : str -> V) es, List.Forall good es ->
  filter_map (parse_entry vstr) (map write es) = map (fun kv => (fst kv, vstr (snd kv))) (pairs es).
Proof.
  intros V vstr es H. induction H as [|e es He Hes IH]; [reflexivity|]. cbn [map filter_map]. rewrite parse_good by exact He.
  destruct e as [w1 k w2 w3 v w4|s]; cbn [pairs flat_map app map fst snd]; [f_equal|]; exact IH.
Qed.
Lemma filter_map_snoc_none : forall A B (f : A -> option B) l x, f x = None -> filter_map f (l ++ [x]) = filter_map f l.
Proof. intros A B f l x Hx. induction l as [|y l IH]; cbn [app filter_map]; [now rewrite Hx|]. destruct (f y); [f_equal|]; exact IH. Qed.
Lemma parse_drop_last : forall V (vstr : str -> V) l, filter_map (parse_entry vstr) (drop_last_empty l) = filter_map (parse_entry vstr) l.
Proof.
  intros V vstr l. destruct (dle_cases l) as [E|E]; [now rewrite E|]. rewrite E at 2. rewrite filter_map_snoc_none; reflexivity.
Qed.

(** C78: whatever the list, each key written in it gets the value of its last pair, and
    no other attribute is set; entries without "=" are ignored. *)
Theorem C78_attribute_list : forall V (vstr : str -> V) es (k : list N), List.Forall good es ->
  r_attrs (env_detect vstr (Some (join [44%N] (map write es)))) !! k =
    option_map vstr (last_value (pairs es) k).
Proof.
  intros V vstr es k Hg. rewrite env_detect_lookup. unfold split_terminator. rewrite parse_drop_last.
  assert (E : filter_map (parse_entry vstr) (split 44%N (join [44%N] (map write es))) = map (fun kv => (fst kv, vstr (snd kv))) (pairs es)).
  { destruct es as [|e es]; [reflexivity|]. rewrite split_join; [apply parse_entries; exact Hg|discriminate|].
    apply List.Forall_map. eapply List.Forall_impl; [|exact Hg]. intros x Hx. apply good_lacks_comma. exact Hx. }
  rewrite E. clear E. unfold last_value. rewrite <- map_rev. generalize (rev (pairs es)). intros l.
  induction l as [|[k0 v] l IH]; [reflexivity|]. cbn [map List.find fst snd]. destruct (str_eqb k0 k); [reflexivity|exact IH].
Qed.
Print Assumptions C78_attribute_list.

(** Every string is such a list: nothing a user can write is outside the theorem, except
    where an entry's value ends up with its percent signs undecoded. *)
Theorem C78_every_list : forall s, exists es, List.Forall good es /\ join [44%N] (map write es) = s.
Proof.
  intros s.
  assert (Hw : forall p, exists w1 t w2, p = w1 ++ t ++ w2 /\ blank w1 /\ blank w2 /\ tight t).
  { intros p. destruct (drop_while_suffix is_ws p) as (a & Ea & Ha). set (q := drop_while is_ws p) in *.
    destruct (drop_while_suffix is_ws (rev q)) as (b & Eb & Hb). set (r := drop_while is_ws (rev q)) in *.
    exists a, (rev r), (rev b). split; [rewrite Ea at 1; f_equal; rewrite <- rev_app_distr, <- Eb; symmetry; apply rev_involutive|].
    assert (Hbl : forall z, forallb is_ws z = true -> blank z) by (intros z Hz; unfold blank; apply List.Forall_forall; intros x Hx; rewrite forallb_forall in Hz; auto).
    split; [apply Hbl; exact Ha|]. split; [apply List.Forall_rev; apply Hbl; exact Hb|].
    assert (Hq : match q with c :: _ => is_ws c = false | [] => True end) by apply drop_while_head.
    assert (Hr : match r with c :: _ => is_ws c = false | [] => True end) by apply drop_while_head.
    split; [|rewrite rev_involutive; exact Hr].
    assert (Eq : q = rev r ++ rev b) by (rewrite <- rev_app_distr, <- Eb; symmetry; apply rev_involutive).
    destruct (rev r) as [|c z]; [exact I|]. rewrite Eq in Hq. exact Hq. }
  assert (H : forall p, ~ In 44%N p -> exists e, good e /\ write e = p).
  { intros p Hp. destruct (split_once 61%N p) as [[k v]|] eqn:E.
    - apply split_once_spec in E. destruct E as [-> Hk].
      destruct (Hw k) as (w1 & k' & w2 & -> & B1 & B2 & T1). destruct (Hw v) as (w3 & v' & w4 & -> & B3 & B4 & T2).
      exists (Pair w1 k' w2 w3 v' w4). split; [|reflexivity]. cbn [good].
      repeat (split; [assumption|]).
      split; [intros Hin; apply Hk; apply in_or_app; right; apply in_or_app; left; exact Hin|].
      split; intros Hin; apply Hp; apply in_or_app.
      + left. apply in_or_app. right. apply in_or_app. left. exact Hin.
      + right. right. apply in_or_app. right. apply in_or_app. left. exact Hin.
    - exists (Junk p). split; [|reflexivity]. split; [apply split_once_none; exact E|exact Hp]. }
  assert (Hall : forall l, List.Forall (lacks 44%N) l -> exists es, List.Forall good es /\ map write es = l).
  { induction l as [|p l IH]; intros Hl; [exists []; split; [constructor|reflexivity]|]. inversion Hl as [|x y Hx Hy]; subst.
    destruct (H p Hx) as (e & He & <-). destruct (IH Hy) as (es & Hes & <-). exists (e :: es). split; [constructor; assumption|reflexivity]. }
  destruct (Hall _ (split_pieces_lack 44%N s)) as (es & Hes & Em). exists es. split; [exact Hes|]. rewrite Em. apply join_split.
Qed.
Print Assumptions C78_every_list.

Example C78_nonvacuous :
  let r := env_detect id (Some (of_string " a = 1 ,b=x=y,junk,a=2,")) in
  r_attrs r !! of_string "a" = Some (of_string "2") /\ r_attrs r !! of_string "b" = Some (of_string "x=y") /\
  r_attrs r !! of_string "junk" = None.
Proof. vm_compute. auto. Qed.
