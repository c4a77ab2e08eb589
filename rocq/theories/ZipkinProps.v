(** C87: what the Zipkin exporter sends. *)
From Coq Require Import List NArith ZArith Bool Lia Permutation String.
From stdpp Require Import base gmap fin_maps.
From Verif Require Import Str StrProofs F64 TraceModel TraceSpec TraceProofs TraceProps SpanModel AttrModel KvModel OtlpModel JsonModel ConfigModel ZipkinModel.
From Verif Require JsonProps JsonProofs.
Import ListNotations.
Local Open Scope Z_scope.

(** ** How a reader of the document sees it *)
Definition entry_of (name : str) (l : list (str * json)) : option json :=
  option_map snd (List.find (fun kv => str_eqb (fst kv) name) l).
Definition member (name : string) (j : json) : option json :=
  match j with JObj l => entry_of (of_string name) l | _ => None end.
Definition tag (k : str) (j : json) : option json :=
  match member "tags" j with Some (JObj l) => entry_of k l | _ => None end.
Definition text_number (w : nat) (n : N) (o : option json) : Prop :=
  exists t, o = Some (JStr t) /\ List.length t = w /\ Forall lower_hex_char t /\ hex_value t = Some n.

(** [us] is the time [ns] in whole microseconds. *)
Definition whole_micros (us ns : Z) : Prop := us * 1000 <= ns < (us + 1) * 1000.
Definition u64_micros : Z := 2 ^ 64 * 1000.
(** The last pair with key [k] holds [v]. *)
Definition last_pair {V} (l : list (str * V)) (k : str) (v : V) : Prop :=
  exists l1 l2, l = l1 ++ (k, v) :: l2 /\ ~ In k (map fst l2).

Section props.
Context (show_f64 : f64 -> str) (order : list (str * str) -> list (str * str)).
Hypothesis order_perm : forall l, Permutation (order l) l.
Notation doc local s := (en_zspan order (zspan_of show_f64 local s)).

Lemma str_eqb_same (s : str) : str_eqb s s = true.
Proof. destruct (str_eqb_spec s s); congruence. Qed.
Lemma key_ne a b : of_string a <> of_string b -> str_eqb (of_string a) (of_string b) = false.
Proof. destruct (str_eqb_spec (of_string a) (of_string b)); congruence. Qed.

(** *** Entries *)
Lemma member_doc local s :
  let z := zspan_of show_f64 local s in
  member "traceId" (doc local s) = Some (JStr (z_trace z)) /\ member "parentId" (doc local s) = Some (JStr (z_parent z)) /\
  member "id" (doc local s) = Some (JStr (z_id z)) /\ member "kind" (doc local s) = option_map en_zkind (z_kind z) /\
  member "name" (doc local s) = Some (JStr (z_name z)) /\ member "timestamp" (doc local s) = Some (JInt (z_time z)) /\
  member "duration" (doc local s) = Some (JInt (z_duration z)) /\
  member "annotations" (doc local s) = Some (JArr (map en_note (z_notes z))) /\
  member "tags" (doc local s) = Some (JObj (map (fun kv => (fst kv, JStr (snd kv))) (order (map_to_list (z_tags z))))) /\
  member "localEndpoint" (doc local s) = Some (en_endpoint (z_local z)) /\ member "serviceName" (doc local s) = None.
Proof.
  intros z. subst z. set (z := zspan_of show_f64 local s). unfold en_zspan. set (tl := map _ (order _)).
  destruct (z_kind z); repeat split; reflexivity.
Qed.

Theorem C87_entries : forall local batch answer,
  let '(q, _) := zipkin_export show_f64 order local batch answer in
  q_post q = true /\ q_type q = "application/json"%string /\
  exists entries, q_body q = JArr entries /\ List.length entries = List.length batch /\
  forall i s, nth_error batch i = Some s ->
    exists j, nth_error entries i = Some j /\
    ((sc_trace (d_ctx s) < 2 ^ 128)%N -> text_number 32 (sc_trace (d_ctx s)) (member "traceId" j)) /\
    ((sc_span (d_ctx s) < 2 ^ 64)%N -> text_number 16 (sc_span (d_ctx s)) (member "id" j)) /\
    ((sd_parent (d_data s) < 2 ^ 64)%N -> text_number 16 (sd_parent (d_data s)) (member "parentId" j)) /\
    member "name" j = Some (JStr (sd_name (d_data s))).
Proof.
  intros local batch answer. cbn [zipkin_export q_post q_type q_body]. split; [reflexivity|]. split; [reflexivity|].
  eexists. split; [reflexivity|]. split; [apply map_length|]. intros i s Hi.
  exists (doc local s). split; [rewrite nth_error_map, Hi; reflexivity|].
  destruct (member_doc local s) as (H1 & H2 & H3 & _ & H5 & _). rewrite H1, H2, H3, H5. cbn [zspan_of z_trace z_parent z_id z_name].
  repeat match goal with |- _ /\ _ => split end; intros; try reflexivity; eexists;
    (split; [reflexivity|]); (split; [apply hex_pad_length|]); (split; [apply hex_pad_chars|]).
  - apply (C12_display_value _ 0%N); [assumption|reflexivity].
  - apply (C12_display_value 0%N _); [reflexivity|assumption].
  - apply (C12_display_value 0%N _); [reflexivity|assumption].
Qed.

(** *** Kind *)
Theorem C87_kind : forall local s,
  (In (of_string "span.kind") (map fst (sd_attrs (d_data s))) -> member "kind" (doc local s) = None) /\
  (~ In (of_string "span.kind") (map fst (sd_attrs (d_data s))) ->
   member "kind" (doc local s) =
   match sd_kind (d_data s) with
   | 0%N => Some (JStr (of_string "CLIENT")) | 1%N => Some (JStr (of_string "SERVER"))
   | 2%N => Some (JStr (of_string "PRODUCER")) | 3%N => Some (JStr (of_string "CONSUMER"))
   | _ => None
   end).
Proof.
  intros local s. destruct (member_doc local s) as (_ & _ & _ & Hk & _). rewrite Hk. cbn [zspan_of z_kind].
  assert (E : existsb (named "span.kind") (sd_attrs (d_data s)) = true <-> In (of_string "span.kind") (map fst (sd_attrs (d_data s)))).
  { rewrite existsb_exists, in_map_iff. unfold named. split.
    - intros (kv & Hi & He). exists kv. split; [|exact Hi]. destruct (str_eqb_spec (fst kv) (of_string "span.kind")); congruence.
    - intros (kv & He & Hi). exists kv. split; [exact Hi|]. rewrite He. apply str_eqb_same. }
  split; intros H.
  - apply E in H. rewrite H. reflexivity.
  - destruct (existsb _ _); [destruct H; apply E; reflexivity|].
    destruct (sd_kind (d_data s)) as [|[[p|p|]|[p|p|]|]]; reflexivity.
Qed.

(** *** Times *)
Lemma micros_spec a b : (a <= b < a + u64_micros -> whole_micros (micros_since a b) (b - a)) /\ (b < a -> micros_since a b = 0).
Proof.
  unfold micros_since, whole_micros, u64_micros. split; intros H.
  - rewrite (proj2 (Z.ltb_ge b a)) by lia.
    assert (0 <= (b - a) / 1000 < 2 ^ 64) by (split; [apply Z.div_pos; lia|apply Z.div_lt_upper_bound; lia]).
    rewrite Z.mod_small by assumption. pose proof (Z.div_mod (b - a) 1000 ltac:(lia)). pose proof (Z.mod_pos_bound (b - a) 1000 ltac:(lia)). lia.
  - rewrite (proj2 (Z.ltb_lt b a)) by lia. reflexivity.
Qed.

Theorem C87_times : forall local s,
  let d := d_data s in
  exists t u, member "timestamp" (doc local s) = Some (JInt t) /\ member "duration" (doc local s) = Some (JInt u) /\
  (0 <= sd_start d < u64_micros -> whole_micros t (sd_start d)) /\ (sd_start d < 0 -> t = 0) /\
  (sd_start d <= sd_end d < sd_start d + u64_micros -> whole_micros u (sd_end d - sd_start d)) /\ (sd_end d < sd_start d -> u = 0).
Proof.
  intros local s d. destruct (member_doc local s) as (_ & _ & _ & _ & _ & H1 & H2 & _). rewrite H1, H2. cbn [zspan_of z_time z_duration].
  exists (micros_since 0 (sd_start d)), (micros_since (sd_start d) (sd_end d)).
  split; [reflexivity|]. split; [reflexivity|].
  pose proof (micros_spec 0 (sd_start d)) as [A B]. pose proof (micros_spec (sd_start d) (sd_end d)) as [C D].
  rewrite Z.sub_0_r, Z.add_0_l in A. auto.
Qed.

(** *** Events *)
Theorem C87_annotations : forall local s,
  exists l, member "annotations" (doc local s) = Some (JArr l) /\
  Forall2 (fun (e : @event attr) j => member "value" j = Some (JStr (ev_name e)) /\
    exists t, member "timestamp" j = Some (JInt t) /\ (0 <= ev_time e < u64_micros -> whole_micros t (ev_time e)))
    (sd_events (d_data s)) l.
Proof.
  intros local s. destruct (member_doc local s) as (_ & _ & _ & _ & _ & _ & _ & H & _). rewrite H. cbn [zspan_of z_notes].
  eexists. split; [reflexivity|]. rewrite map_map. induction (sd_events (d_data s)) as [|e l IH]; [constructor|].
  cbn [map]. constructor; [|exact IH]. split; [reflexivity|]. exists (micros_since 0 (ev_time e)). split; [reflexivity|].
  pose proof (micros_spec 0 (ev_time e)) as [A _]. rewrite Z.sub_0_r, Z.add_0_l in A. exact A.
Qed.

(** *** Tags *)
Lemma entry_order m (k : str) : entry_of k (map (fun kv => (fst kv, JStr (snd kv))) (order (map_to_list (m : gmap (list N) str)))) = option_map JStr (m !! k).
Proof.
  assert (Hn : List.NoDup (map fst (order (map_to_list m)))).
  { eapply Permutation_NoDup; [apply Permutation_map, Permutation_sym, order_perm|]. pose proof (NoDup_fst_map_to_list m) as X. apply NoDup_ListNoDup in X. exact X. }
  assert (Hi : forall v, m !! k = Some v <-> In (k, v) (order (map_to_list m))).
  { intros v. split; intros H.
    - eapply Permutation_in; [apply Permutation_sym, order_perm|]. apply elem_of_list_In, elem_of_map_to_list. exact H.
    - apply elem_of_map_to_list, elem_of_list_In. eapply Permutation_in; [apply order_perm|]. exact H. }
  revert Hn Hi. generalize (order (map_to_list m)). intros l Hn Hi. unfold entry_of.
  destruct (List.find _ _) as [[k' j]|] eqn:E.
  - apply find_some in E. destruct E as [Hin He]. cbn [fst] in He. destruct (str_eqb_spec k' k) as [-> |]; [|discriminate].
    apply in_map_iff in Hin. destruct Hin as ([k1 v] & Heq & Hin). injection Heq as -> <-. cbn [snd option_map].
    apply Hi in Hin. rewrite Hin. reflexivity.
  - destruct (m !! k) as [v|]; [|reflexivity]. pose proof (proj1 (Hi v) eq_refl) as Em.
    pose proof (find_none _ _ E (k, JStr v)) as Hx. cbn [fst] in Hx. rewrite str_eqb_same in Hx.
    discriminate Hx. apply in_map_iff. exists (k, v). auto.
Qed.

Lemma map_from_lookup : forall (l : list attr) (m : gmap (list N) str) (k : str),
  fold_left (fun m kv => <[fst kv := show_value show_f64 (snd kv)]> m) l m !! k =
  match List.find (fun kv : attr => str_eqb (fst kv) k) (rev l) with Some kv => Some (show_value show_f64 (snd kv)) | None => m !! k end.
Proof.
  induction l as [|[k0 v] l IH]; intros m k; [reflexivity|]. cbn [fold_left rev fst snd]. rewrite IH. clear IH.
  generalize (rev l). intros r. induction r as [|x r IH]; cbn [List.find app fst].
  - destruct (str_eqb_spec k0 k) as [-> |Hn]; cbn [snd]; [apply lookup_insert|apply lookup_insert_ne; exact Hn].
  - destruct (str_eqb (fst x) k); [reflexivity|exact IH].
Qed.
Lemma find_last_pair (l : list attr) k v : last_pair l k v -> List.find (fun kv : attr => str_eqb (fst kv) k) (rev l) = Some (k, v).
Proof.
  intros (l1 & l2 & -> & Hn). rewrite rev_app_distr. cbn [rev]. rewrite <- app_assoc.
  assert (Hn' : ~ In k (map fst (rev l2))) by (rewrite map_rev, <- in_rev; exact Hn). clear Hn. revert Hn'. generalize (rev l2).
  induction l as [|x l IH]; intros Hn; cbn [app List.find fst].
  - rewrite str_eqb_same. reflexivity.
  - destruct (str_eqb_spec (fst x) k) as [E|_]; [destruct Hn; left; exact E|]. apply IH. intros H. apply Hn. right. exact H.
Qed.
Lemma find_absent (l : list attr) k : ~ In k (map fst l) -> List.find (fun kv : attr => str_eqb (fst kv) k) (rev l) = None.
Proof.
  intros Hn. destruct (List.find _ _) as [kv|] eqn:E; [|reflexivity]. apply find_some in E. destruct E as [Hi He].
  destruct (str_eqb_spec (fst kv) k) as [<-|]; [|discriminate]. destruct Hn. apply in_map. apply in_rev. exact Hi.
Qed.

(** The pairs that reach the map, seen from one key. *)
Lemma last_pair_filter (l : list attr) k v : k <> of_string "error" -> last_pair l k v -> last_pair (List.filter (fun kv => negb (named "error" kv)) l) k v.
Proof.
  intros Hk (l1 & l2 & -> & Hn). rewrite List.filter_app. cbn [List.filter]. unfold named at 2. cbn [fst].
  destruct (str_eqb_spec k (of_string "error")); [congruence|]. cbn [negb]. eexists _, _. split; [reflexivity|].
  intros Hi. apply Hn. apply in_map_iff in Hi. destruct Hi as (x & E & Hx). apply List.filter_In in Hx. apply in_map_iff. exists x. tauto.
Qed.
Lemma last_pair_app {V} (l r : list (str * V)) k v : last_pair l k v -> ~ In k (map fst r) -> last_pair (l ++ r) k v.
Proof.
  intros (l1 & l2 & -> & Hn) Hr. exists l1, (l2 ++ r). split; [rewrite <- app_assoc; reflexivity|]. rewrite map_app, in_app_iff. tauto.
Qed.

Definition LNAME := of_string "otel.library.name".
Definition LVERSION := of_string "otel.library.version".
Definition CODE := of_string "otel.status_code".
Definition ERROR := of_string "error".

Lemma tag_doc local s k : tag k (doc local s) = option_map JStr (z_tags (zspan_of show_f64 local s) !! k).
Proof.
  unfold tag. destruct (member_doc local s) as (_ & _ & _ & _ & _ & _ & _ & _ & H & _). rewrite H. apply entry_order.
Qed.
Lemma tags_plain local s k : (k <> CODE \/ sd_status (d_data s) = Unset) -> (k <> ERROR \/ forall m, sd_status (d_data s) <> Error m) ->
  z_tags (zspan_of show_f64 local s) !! k =
  option_map (fun kv : attr => show_value show_f64 (snd kv)) (List.find (fun kv : attr => str_eqb (fst kv) k) (rev (List.filter (fun kv => negb (named "error" kv)) (sd_attrs (d_data s) ++ scope_attrs (d_scope s))))).
Proof.
  intros H1 H2. cbn [zspan_of z_tags]. set (l := List.filter _ _).
  assert (Hm : map_from_kvs show_f64 l !! k = option_map (fun kv : attr => show_value show_f64 (snd kv)) (List.find (fun kv : attr => str_eqb (fst kv) k) (rev l))).
  { unfold map_from_kvs. rewrite map_from_lookup. rewrite lookup_empty. destruct (List.find _ _); reflexivity. }
  rewrite <- Hm. destruct (sd_status (d_data s)) as [|m|]; [reflexivity| |].
  - destruct H1 as [H1|H1]; [|discriminate]. destruct H2 as [H2|H2]; [|destruct (H2 m); reflexivity].
    rewrite lookup_insert_ne by (intros E; apply H2; symmetry; exact E). apply lookup_insert_ne. intros E. apply H1. symmetry. exact E.
  - destruct H1 as [H1|H1]; [|discriminate]. apply lookup_insert_ne. intros E. apply H1. symmetry. exact E.
Qed.
Lemma scope_keys sc k : k <> LNAME -> (k <> LVERSION \/ sc_version sc = None) -> ~ In k (map fst (scope_attrs sc)).
Proof.
  intros H1 H2. unfold scope_attrs. destruct (sc_version sc) as [v|]; cbn [map fst In].
  - destruct H2 as [H2|H2]; [|discriminate]. intros [E|[E|[]]]; [apply H1|apply H2]; symmetry; exact E.
  - intros [E|[]]. apply H1. symmetry. exact E.
Qed.
Lemma error_filtered (l : list attr) : ~ In ERROR (map fst (List.filter (fun kv => negb (named "error" kv)) l)).
Proof.
  intros H. apply in_map_iff in H. destruct H as (x & E & H). apply List.filter_In in H. destruct H as [_ H]. unfold named in H. rewrite E in H.
  unfold ERROR in H. rewrite str_eqb_same in H. discriminate.
Qed.

(** What each tag of the document is. *)
Theorem C87_tags : forall local s,
  let d := d_data s in let sc := d_scope s in
  (forall k v, last_pair (sd_attrs d) k v -> k <> ERROR -> k <> LNAME -> (k <> LVERSION \/ sc_version sc = None) ->
     (k <> CODE \/ sd_status d = Unset) -> tag k (doc local s) = Some (JStr (show_value show_f64 v))) /\
  tag LNAME (doc local s) = Some (JStr (sc_name sc)) /\
  (forall v, sc_version sc = Some v -> tag LVERSION (doc local s) = Some (JStr v)) /\
  (sd_status d = StatusOk -> tag CODE (doc local s) = Some (JStr (of_string "OK")) /\ tag ERROR (doc local s) = None) /\
  (forall m, sd_status d = Error m -> tag CODE (doc local s) = Some (JStr (of_string "ERROR")) /\ tag ERROR (doc local s) = Some (JStr m)) /\
  (sd_status d = Unset -> tag ERROR (doc local s) = None) /\
  (forall k, ~ In k (map fst (sd_attrs d)) -> k <> ERROR -> k <> LNAME -> (k <> LVERSION \/ sc_version sc = None) ->
     (k <> CODE \/ sd_status d = Unset) -> tag k (doc local s) = None).
Proof.
  intros local s d sc.
  assert (Hn1 : LNAME <> CODE) by (vm_compute; discriminate). assert (Hn2 : LNAME <> ERROR) by (vm_compute; discriminate).
  assert (Hv1 : LVERSION <> CODE) by (vm_compute; discriminate). assert (Hv2 : LVERSION <> ERROR) by (vm_compute; discriminate).
  assert (Hvn : LNAME <> LVERSION) by (vm_compute; discriminate). assert (Hce : CODE <> ERROR) by (vm_compute; discriminate).
  assert (Herr : (forall m, sd_status d <> Error m) -> tag ERROR (doc local s) = None).
  { intros Hs. rewrite tag_doc, tags_plain; [|left; intros E; apply Hce; symmetry; exact E|right; exact Hs].
    rewrite find_absent; [reflexivity|apply error_filtered]. }
  repeat match goal with |- _ /\ _ => split end.
  - intros k v Hl He Hn Hv Hc. rewrite tag_doc, tags_plain by (tauto || (left; exact He)).
    rewrite (find_last_pair _ k v); [reflexivity|]. apply last_pair_filter; [exact He|]. apply last_pair_app; [exact Hl|]. apply scope_keys; assumption.
  - rewrite tag_doc, tags_plain by (left; assumption). rewrite (find_last_pair _ LNAME (VString (sc_name sc))); [reflexivity|].
    apply last_pair_filter; [exact Hn2|]. exists (sd_attrs d). unfold scope_attrs. fold sc. eexists. split; [reflexivity|].
    destruct (sc_version sc); cbn [map fst In]; [|tauto]. intros [E|[]]. apply Hvn. symmetry. exact E.
  - intros v Ev. rewrite tag_doc, tags_plain by (left; assumption). rewrite (find_last_pair _ LVERSION (VString v)); [reflexivity|].
    apply last_pair_filter; [exact Hv2|]. exists (sd_attrs d ++ [(LNAME, VString (sc_name sc))]), []. split; [|intros []].
    unfold scope_attrs. fold sc. rewrite Ev, <- app_assoc. reflexivity.
  - intros Es. split; [|apply Herr; intros m; rewrite Es; discriminate].
    rewrite tag_doc. cbn [zspan_of z_tags]. fold d. rewrite Es. fold CODE. rewrite lookup_insert. reflexivity.
  - intros m Es. rewrite !tag_doc. cbn [zspan_of z_tags]. fold d. rewrite Es. fold CODE ERROR. split.
    + rewrite lookup_insert_ne by (intros E; apply Hce; symmetry; exact E). rewrite lookup_insert. reflexivity.
    + rewrite lookup_insert. reflexivity.
  - intros Es. apply Herr. intros m. rewrite Es. discriminate.
  - intros k Hl He Hn Hv Hc. rewrite tag_doc, tags_plain by (tauto || (left; exact He)).
    rewrite find_absent; [reflexivity|]. intros Hi. apply in_map_iff in Hi. destruct Hi as (x & E & Hx). apply List.filter_In in Hx. destruct Hx as [Hx _].
    apply in_app_iff in Hx. destruct Hx as [Hx|Hx].
    + apply Hl. apply in_map_iff. exists x. split; [exact E|exact Hx].
    + apply (scope_keys sc k Hn Hv). apply in_map_iff. exists x. split; [exact E|exact Hx].
Qed.

(** The answer of [export]: success exactly when the collector answers with a status of
    the 2xx class; [shutdown] does not stop later exports. *)
Theorem C87_result : forall local batch answer,
  (snd (zipkin_export show_f64 order local batch answer) = true <-> exists c, answer = Status c /\ (200 <= c <= 299)%N) /\
  zipkin_export show_f64 order (zipkin_shutdown local) batch answer = zipkin_export show_f64 order local batch answer.
Proof.
  intros local batch answer. split; [|reflexivity]. cbn [zipkin_export snd]. destruct answer as [|c]; split.
  - discriminate.
  - intros (c & E & _). discriminate.
  - unfold is_success. intros H. apply andb_prop in H. destruct H as [H1 H2]. apply N.leb_le in H1. apply N.ltb_lt in H2. exists c. split; [reflexivity|lia].
  - intros (c' & E & H). injection E as ->. unfold is_success. rewrite (proj2 (N.leb_le _ _)), (proj2 (N.ltb_lt _ _)) by lia. reflexivity.
Qed.

(** What cannot be seen in Zipkin: spans that differ only in their links, trace state,
    flags, event attributes, and dropped counts give the same document. *)
Theorem C87_not_exported : forall local s s',
  sc_trace (d_ctx s) = sc_trace (d_ctx s') -> sc_span (d_ctx s) = sc_span (d_ctx s') ->
  sc_name (d_scope s) = sc_name (d_scope s') -> sc_version (d_scope s) = sc_version (d_scope s') ->
  sd_parent (d_data s) = sd_parent (d_data s') -> sd_kind (d_data s) = sd_kind (d_data s') -> sd_name (d_data s) = sd_name (d_data s') ->
  sd_start (d_data s) = sd_start (d_data s') -> sd_end (d_data s) = sd_end (d_data s') -> sd_attrs (d_data s) = sd_attrs (d_data s') ->
  sd_status (d_data s) = sd_status (d_data s') ->
  map (fun e => (ev_name e, ev_time e)) (sd_events (d_data s)) = map (fun e => (ev_name e, ev_time e)) (sd_events (d_data s')) ->
  doc local s = doc local s'.
Proof.
  intros local s s' H1 H2 H3 H4 H5 H6 H7 H8 H9 H10 H11 H12. f_equal. unfold zspan_of, scope_attrs.
  rewrite H1, H2, H3, H4, H5, H6, H7, H8, H9, H10, H11. f_equal.
  assert (G : forall l : list (@event attr), map (fun e => (micros_since 0 (ev_time e), ev_name e)) l =
    map (fun p : str * Z => (micros_since 0 (snd p), fst p)) (map (fun e => (ev_name e, ev_time e)) l)).
  { intros l. rewrite map_map. reflexivity. }
  rewrite !G, H12. reflexivity.
Qed.

(** The local endpoint is the configured address: dotted quad or the text of the IPv6
    address, and the port; empty without one. *)
Theorem C87_endpoint : forall local s,
  exists e, member "localEndpoint" (doc local s) = Some (JObj e) /\
  match local with
  | None => e = []
  | Some (V4 a b c d p) => List.map fst e = [of_string "ipv4"; of_string "port"] /\ member "port" (JObj e) = Some (JInt (Z.of_N p)) /\
      ((a < 256 /\ b < 256 /\ c < 256 /\ d < 256)%N -> exists ta tb tc td, member "ipv4" (JObj e) = Some (JStr (join (of_string ".") [ta; tb; tc; td])) /\
         JsonProps.nat_text a ta /\ JsonProps.nat_text b tb /\ JsonProps.nat_text c tc /\ JsonProps.nat_text d td)
  | Some (V6 ip p) => List.map fst e = [of_string "ipv6"; of_string "port"] /\ member "port" (JObj e) = Some (JInt (Z.of_N p)) /\ member "ipv6" (JObj e) = Some (JStr ip)
  end.
Proof.
  intros local s. destruct (member_doc local s) as (_ & _ & _ & _ & _ & _ & _ & _ & _ & H1 & _). rewrite H1. cbn [zspan_of z_local].
  destruct local as [[a b c d p|ip p]|]; eexists; (split; [reflexivity|]); cbn [en_endpoint]; [|auto|reflexivity].
  split; [reflexivity|]. split; [reflexivity|]. intros (Ha & Hb & Hc & Hd). exists (dec_N a), (dec_N b), (dec_N c), (dec_N d).
  assert (L : forall n, (n < 256)%N -> JsonProps.nat_text n (dec_N n)) by (intros n Hn; apply JsonProps.dec_N_text; lia).
  split; [reflexivity|]. auto.
Qed.

(** A resource, and so the service name, never reaches Zipkin. *)
Theorem C134_service_name_refuted : forall r local batch answer,
  zipkin_export show_f64 order (zipkin_set_resource r local) batch answer = zipkin_export show_f64 order local batch answer /\
  (forall s, member "serviceName" (doc local s) = None /\
    exists e, member "localEndpoint" (doc local s) = Some e /\ member "serviceName" e = None).
Proof.
  intros r local batch answer. split; [reflexivity|]. intros s. destruct (member_doc local s) as (_ & _ & _ & _ & _ & _ & _ & _ & _ & H1 & H2).
  split; [exact H2|]. eexists. split; [exact H1|]. cbn [zspan_of z_local]. destruct local as [[]|]; reflexivity.
Qed.
(** The text of a tag tells truth values, integers and strings, and the integers of an array. *)
Theorem C87_tag_texts :
  show_value show_f64 (VBool true) = of_string "true" /\ show_value show_f64 (VBool false) = of_string "false" /\
  (forall z, - 2 ^ 63 <= z < 2 ^ 63 -> JsonProps.int_text z (show_value show_f64 (VI64 z))) /\
  (forall s, show_value show_f64 (VString s) = s) /\
  (forall f, show_value show_f64 (VF64 f) = show_f64 f) /\
  (forall zs, Forall (fun z => - 2 ^ 63 <= z < 2 ^ 63) zs ->
    exists ts, Forall2 JsonProps.int_text zs ts /\ show_value show_f64 (VArray (AI64 zs)) = of_string "[" ++ join (of_string ",") ts ++ of_string "]") /\
  (forall bs, show_value show_f64 (VArray (ABool bs)) =
     of_string "[" ++ join (of_string ",") (map (fun b : bool => of_string (if b then "true" else "false")) bs) ++ of_string "]").
Proof.
  assert (HL : forall A (show : A -> str) l, show_list show l = of_string "[" ++ join (of_string ",") (map show l) ++ of_string "]").
  { intros A show l. unfold show_list. cbn [of_string app]. f_equal. f_equal. destruct l as [|x l]; [reflexivity|]. cbn [map]. revert x.
    induction l as [|y l IH]; intros x; [cbn; apply app_nil_r|]. cbn [show_tail map join]. rewrite IH. reflexivity. }
  assert (HZ : forall z, - 2 ^ 63 <= z < 2 ^ 63 -> JsonProps.int_text z (show_value show_f64 (VI64 z))).
  { intros z Hz. apply JsonProps.dec_Z_text. left. exact Hz. }
  split; [reflexivity|]. split; [reflexivity|]. split; [exact HZ|]. split; [reflexivity|]. split; [reflexivity|]. split.
  - intros zs Hzs. exists (map dec_Z zs). split; [|apply HL]. induction Hzs as [|z zs Hz _ IH]; constructor; [apply (HZ z Hz)|exact IH].
  - intros bs. apply HL.
Qed.
End props.
Print Assumptions C87_tag_texts. Print Assumptions C87_endpoint.
Print Assumptions C87_entries. Print Assumptions C87_kind. Print Assumptions C87_times. Print Assumptions C87_annotations.
Print Assumptions C87_tags. Print Assumptions C87_result. Print Assumptions C87_not_exported. Print Assumptions C134_service_name_refuted.

(** *** A concrete span *)
Definition ex_data (parent : N) (attrs : list attr) (st : status) : @span_data attr :=
  mk_data parent 1 (of_string "GET") 1500000 2750999 attrs 0 [mk_event (of_string "retry") 2000000 [] 0] 0 [] 0 st.
Definition ex_scope : scope := mk_scope (of_string "lib") (Some (of_string "1.2")) None [].
Definition ex_span (parent : N) (attrs : list attr) (st : status) : sdata :=
  mk_sdata (mk_sc 171 205 1 false None) (ex_data parent attrs st) ex_scope.
Definition ex_show : f64 -> str := fun _ => of_string "0.5".
Notation exdoc s := (en_zspan (fun l => l) (zspan_of ex_show None s)).

(** A root span is sent with a parent id of sixteen zeros instead of none. *)
Theorem C134_root_parent_refuted : forall attrs st,
  member "parentId" (exdoc (ex_span 0 attrs st)) = Some (JStr (of_string "0000000000000000")).
Proof. reflexivity. Qed.
Print Assumptions C134_root_parent_refuted.

(** An attribute called error is dropped even when nothing takes its place. *)
Theorem C134_error_attribute_refuted : forall v,
  tag ERROR (exdoc (ex_span 7 [(ERROR, v)] Unset)) = None.
Proof.
  intros v. destruct (C87_tags ex_show (fun l => l) (fun l => Permutation_refl l) None (ex_span 7 [(ERROR, v)] Unset)) as (_ & _ & _ & _ & _ & H & _).
  apply H. reflexivity.
Qed.
Print Assumptions C134_error_attribute_refuted.

(** Quotes in strings are not escaped: different arrays of strings give the same tag. *)
Theorem C134_string_arrays_refuted : exists a b : list str, a <> b /\ List.length a <> List.length b /\
  forall show, show_value show (VArray (AString a)) = show_value show (VArray (AString b)).
Proof.
  exists [of_string "a"; of_string "b"], [of_string "a" ++ 34%N :: 44%N :: 34%N :: of_string "b"].
  split; [intros E; vm_compute in E; discriminate|]. split; [vm_compute; discriminate|]. reflexivity.
Qed.
Print Assumptions C134_string_arrays_refuted.

(** *** Settings *)
Theorem C87_settings : forall env : environment,
  (forall e, zipkin_endpoint env (Some e) = e) /\
  (forall e, env (of_string "OTEL_EXPORTER_ZIPKIN_ENDPOINT") = Some e -> e <> [] -> zipkin_endpoint env None = e) /\
  (env (of_string "OTEL_EXPORTER_ZIPKIN_ENDPOINT") = None \/ env (of_string "OTEL_EXPORTER_ZIPKIN_ENDPOINT") = Some [] ->
   zipkin_endpoint env None = of_string "http://127.0.0.1:9411/api/v2/spans") /\
  (forall t, env (of_string "OTEL_EXPORTER_ZIPKIN_TIMEOUT") = Some t -> forall n, parse_dec (2 ^ 64) t = Some n -> zipkin_timeout env = n) /\
  ((forall t, env (of_string "OTEL_EXPORTER_ZIPKIN_TIMEOUT") = Some t -> parse_dec (2 ^ 64) t = None) -> zipkin_timeout env = 10000%N).
Proof.
  intros env. repeat match goal with |- _ /\ _ => split end.
  - reflexivity.
  - intros e E Hn. unfold zipkin_endpoint. rewrite E. destruct e; [congruence|reflexivity].
  - unfold zipkin_endpoint. intros [E|E]; rewrite E; reflexivity.
  - intros t E n Hp. unfold zipkin_timeout. rewrite E. destruct t; [discriminate|]. cbn [nonempty]. rewrite Hp. reflexivity.
  - intros H. unfold zipkin_timeout. destruct (env (of_string "OTEL_EXPORTER_ZIPKIN_TIMEOUT")) as [t|]; [|reflexivity].
    specialize (H t eq_refl). destruct t; [reflexivity|]. cbn [nonempty]. rewrite H. reflexivity.
Qed.
Print Assumptions C87_settings.

Example C87_nonvacuous :
  let s := ex_span 9 [(of_string "n", VI64 (-3)); (of_string "n", VArray (AI64 [1; 2])); (LNAME, VBool true)] (Error (of_string "boom")) in
  member "traceId" (exdoc s) = Some (JStr (of_string "000000000000000000000000000000ab")) /\
  member "parentId" (exdoc s) = Some (JStr (of_string "0000000000000009")) /\
  member "kind" (exdoc s) = Some (JStr (of_string "SERVER")) /\
  member "timestamp" (exdoc s) = Some (JInt 1500) /\ member "duration" (exdoc s) = Some (JInt 1250) /\
  tag (of_string "n") (exdoc s) = Some (JStr (of_string "[1,2]")) /\ tag LNAME (exdoc s) = Some (JStr (of_string "lib")) /\
  tag CODE (exdoc s) = Some (JStr (of_string "ERROR")) /\ tag ERROR (exdoc s) = Some (JStr (of_string "boom")) /\
  last_pair (sd_attrs (d_data s)) (of_string "n") (VArray (AI64 [1; 2])) /\
  snd (zipkin_export ex_show (fun l => l) None [s] (Status 202)) = true.
Proof.
  intros s. repeat match goal with |- _ /\ _ => split end; try (vm_compute; reflexivity).
  exists [(of_string "n", VI64 (-3))], [(LNAME, VBool true)]. split; [reflexivity|]. intros [E|[]]. vm_compute in E. discriminate.
Qed.
