(** Property C82: how a baggage header written by another W3C implementation is
    read.  The specification here is the grammar of the W3C baggage
    recommendation, written down independently of the parser in
    [BaggageModel.v]; the parser is [bg_extract]. *)
From Coq Require Import String List NArith Bool Lia.
From stdpp Require Import base list gmap.
From Verif Require Import Str StrProofs ContextModel BaggageModel BaggageSpec BaggageProofs.
Import ListNotations.
Local Open Scope N_scope.

(** * Specification: the W3C grammar *)

(** [OWS]: spaces and tabs. *)
Definition ows (s : str) : Prop := Forall (fun c => c = 32 \/ c = 9) s.

(** [baggage-octet]: printable ASCII without space, double quote, comma, semicolon
    and backslash. *)
Definition baggage_octet (c : char) : Prop :=
  c = 0x21 \/ 0x23 <= c <= 0x2B \/ 0x2D <= c <= 0x3A \/ 0x3C <= c <= 0x5B \/ 0x5D <= c <= 0x7E.

(** Text standing for a sequence of bytes: octets for themselves, or percent
    encoded with digits in either case. *)
Inductive pct_text : str -> list N -> Prop :=
| pt_nil : pct_text [] []
| pt_octet c s bs : baggage_octet c -> c <> 37 -> pct_text s bs -> pct_text (c :: s) (c :: bs)
| pt_escape h l x y s bs : hex_val h = Some x -> hex_val l = Some y -> pct_text s bs ->
    pct_text (37 :: h :: l :: s) (x * 16 + y :: bs).

(** A list member: a key, an equals sign, a value and properties each after a
    semicolon, with optional white space around every part. *)
Record member := mk_member {
  m_pre : str; m_key : str; m_post : str;
  m_vpre : str; m_text : str; m_vpost : str;
  m_props : list (str * (str * str)) }.   (** white space before, property, white space after *)

Definition prop_text (p : str * (str * str)) : str := fst p ++ fst (snd p) ++ snd (snd p).
Definition member_text (m : member) : str :=
  m_pre m ++ m_key m ++ m_post m ++ [EQUALS] ++ m_vpre m ++ m_text m ++ m_vpost m ++
  flat_map (fun p => SEMI :: prop_text p) (m_props m).
Definition header_text (ms : list member) : str := join [COMMA] (map member_text ms).

(** A well-formed member with the value [v]. *)
Definition prop_ok (p : str * (str * str)) : Prop :=
  ows (fst p) /\ ows (snd (snd p)) /\
  Forall (fun c => baggage_octet c \/ c = 32 \/ c = 9) (fst (snd p)) /\ no_escape (fst (snd p)) /\
  trim (fst (snd p)) = fst (snd p).
Definition means (m : member) (v : str) : Prop :=
  ows (m_pre m) /\ ows (m_post m) /\ ows (m_vpre m) /\ ows (m_vpost m) /\
  permitted_key (m_key m) /\ no_escape (m_key m) /\
  ~ In EQUALS (m_text m) /\ wf_str v = true /\ trim v = v /\ pct_text (m_text m) (utf8 v) /\
  Forall prop_ok (m_props m).
Definition metadata_of (m : member) : str := join [SEMI] (map (fun p => fst (snd p)) (m_props m)).

(** * Lemmas *)

Lemma ows_ws o : ows o -> forallb is_ws o = true.
Proof. intros H. apply forallb_forall. intros c Hc. unfold ows in H. rewrite List.Forall_forall in H.
  destruct (H c Hc) as [->| ->]; reflexivity. Qed.
Lemma ows_ascii o : ows o -> forallb (fun c => c <? 0x80) o = true.
Proof. intros H. apply forallb_forall. intros c Hc. unfold ows in H. rewrite List.Forall_forall in H.
  destruct (H c Hc) as [->| ->]; reflexivity. Qed.
Lemma ows_lacks o c : ows o -> In c [COMMA; SEMI; EQUALS] -> lacks c o.
Proof. intros H Hc Hin. unfold ows in H. rewrite List.Forall_forall in H. cbn in Hc.
  destruct (H c Hin) as [->| ->]; destruct Hc as [E|[E|[E|[]]]]; discriminate E. Qed.

Lemma drop_while_app p a b : forallb p a = true -> drop_while p (a ++ b) = drop_while p b.
Proof. induction a as [|c a IH]; [reflexivity|]. cbn. intros H. apply andb_true_iff in H as [-> H]. apply IH, H. Qed.
Lemma drop_while_all p a : forallb p a = true -> drop_while p a = [].
Proof. intros H. rewrite <- (app_nil_r a), drop_while_app by exact H. reflexivity. Qed.

Lemma forallb_rev {A} (p : A -> bool) l : forallb p (rev l) = forallb p l.
Proof. induction l as [|x l IH]; [reflexivity|]. cbn. rewrite forallb_app, IH. cbn. rewrite andb_true_r. apply andb_comm. Qed.

Lemma trim_ends s : trim s = s ->
  match s with c :: _ => is_ws c = false | [] => True end /\
  match rev s with c :: _ => is_ws c = false | [] => True end.
Proof.
  intros H. split.
  - pose proof (drop_while_head is_ws s) as G. destruct s as [|c r]; [exact I|].
    destruct (is_ws c) eqn:E; [|reflexivity]. exfalso.
    assert (List.length (trim (c :: r)) <= List.length r)%nat as L.
    { unfold trim, trim_start, trim_end. rewrite rev_length. cbn [drop_while]. rewrite E.
      destruct (drop_while_suffix is_ws r) as (a & Ha & _).
      destruct (drop_while_suffix is_ws (rev (drop_while is_ws r))) as (a' & Ha' & _).
      apply (f_equal (@List.length N)) in Ha, Ha'. rewrite app_length in Ha, Ha'. rewrite rev_length in Ha'. lia. }
    rewrite H in L. cbn in L. lia.
  - rewrite <- H. unfold trim, trim_end. rewrite rev_involutive. apply drop_while_head.
Qed.

Lemma trim_pad a s b : forallb is_ws a = true -> forallb is_ws b = true -> trim s = s ->
  trim (a ++ s ++ b) = s.
Proof.
  intros Ha Hb Hs. destruct (trim_ends s Hs) as [H1 H2]. unfold trim, trim_start.
  rewrite drop_while_app by exact Ha. destruct s as [|c r].
  - cbn [app]. rewrite drop_while_all by exact Hb. reflexivity.
  - cbn [app drop_while]. rewrite H1. unfold trim_end. change (c :: r ++ b) with ((c :: r) ++ b).
    rewrite rev_app_distr, drop_while_app by (rewrite forallb_rev; exact Hb).
    rewrite drop_while_id by exact H2. apply rev_involutive.
Qed.

(** Decoding text that stands for bytes. *)
Lemma pct_text_decode t bs r : pct_text t bs -> pct_decode (t ++ r) = bs ++ pct_decode r.
Proof.
  induction 1 as [|c s bs Hc Hne _ IH|h l x y s bs Hh Hl _ IH]; [reflexivity| |].
  - cbn [app]. rewrite pct_decode_unfold by exact Hne. rewrite IH. reflexivity.
  - cbn [app pct_decode]. rewrite N.eqb_refl, Hh, Hl, IH. reflexivity.
Qed.
Lemma hex_val_range h x : hex_val h = Some x -> 48 <= h <= 57 \/ 97 <= h <= 102 \/ 65 <= h <= 70.
Proof.
  unfold hex_val, is_digit, between.
  destruct ((48 <=? h) && (h <=? 57)) eqn:E1; [intros _; lia|].
  destruct ((97 <=? h) && (h <=? 102)) eqn:E2; [intros _; lia|].
  destruct ((65 <=? h) && (h <=? 70)) eqn:E3; [intros _; lia|discriminate].
Qed.
Lemma pct_text_chars t bs : pct_text t bs -> Forall (fun c => 33 <= c <= 126 /\ c <> 44 /\ c <> 59) t.
Proof.
  induction 1 as [|c s bs Hc Hne _ IH|h l x y s bs Hh Hl _ IH]; [constructor| |].
  - constructor; [|exact IH]. unfold baggage_octet in Hc. lia.
  - apply hex_val_range in Hh, Hl. repeat constructor; try exact IH; lia.
Qed.
Lemma ascii_of (P : N -> Prop) t : Forall P t -> (forall c, P c -> c < 0x80) -> forallb (fun c => c <? 0x80) t = true.
Proof. intros H HP. apply forallb_forall. intros c Hc. rewrite List.Forall_forall in H. apply N.ltb_lt, HP, H, Hc. Qed.

Lemma decode_ows o : ows o -> pct_decode o = o.
Proof. intros H. apply pct_decode_raw. induction H as [|c o Hc _ IH]; [exact I|]. cbn. split; [|exact IH].
  destruct Hc as [->| ->]; discriminate. Qed.

Lemma decode_value a t b v : ows a -> ows b -> wf_str v = true -> pct_text t (utf8 v) ->
  pct_decode_str (a ++ t ++ b) = Some (a ++ v ++ b).
Proof.
  intros Ha Hb Hv Ht. unfold pct_decode_str.
  assert (forallb (fun c => c <? 0x80) (a ++ t ++ b) = true) as Hasc.
  { rewrite !forallb_app, (ows_ascii a Ha), (ows_ascii b Hb), andb_true_r.
    apply (ascii_of _ t (pct_text_chars _ _ Ht)). cbn. intros c Hc. lia. }
  rewrite (utf8_ascii _ Hasc).
  assert (pct_decode (a ++ t ++ b) = utf8 (a ++ v ++ b)) as ->.
  { rewrite !utf8_app, (utf8_ascii a (ows_ascii a Ha)), (utf8_ascii b (ows_ascii b Hb)).
    assert (forall r, pct_decode (a ++ r) = a ++ pct_decode r) as Happ.
    { intros r. clear -Ha. induction Ha as [|c a Hc _ IH]; [reflexivity|]. cbn [app].
      rewrite pct_decode_unfold by (destruct Hc as [->| ->]; discriminate). rewrite IH. reflexivity. }
    rewrite Happ, (pct_text_decode _ _ _ Ht), (decode_ows b Hb). reflexivity. }
  apply utf8_roundtrip. unfold wf_str in *. apply forallb_forall. intros c Hc. rewrite forallb_forall in Hv.
  unfold ows in Ha, Hb. rewrite List.Forall_forall in Ha, Hb. rewrite !in_app_iff in Hc.
  destruct Hc as [Hc|[Hc|Hc]]; [destruct (Ha c Hc) as [->| ->]; reflexivity|apply Hv, Hc|
    destruct (Hb c Hc) as [->| ->]; reflexivity].
Qed.

Lemma npx_ows_l a s : ows a -> npx s -> npx (a ++ s).
Proof. intros Ha Hs. induction Ha as [|c a Hc _ IH]; [exact Hs|]. cbn. split; [|exact IH].
  destruct Hc as [->| ->]; discriminate. Qed.
Lemma npx_ows_r s b : npx s -> ows b -> npx (s ++ b).
Proof.
  intros Hs Hb. induction s as [|c s IH].
  - cbn [app]. rewrite <- (app_nil_r b). apply npx_ows_l; [exact Hb|exact I].
  - cbn [app npx]. destruct Hs as [H1 H2]. split; [|apply IH, H2]. intros E. specialize (H1 E).
    destruct s as [|h s]; cbn [app].
    + destruct Hb as [|x b Hx Hb]; [exact I|]. destruct Hb as [|y b Hy Hb]; [exact I|].
      left. destruct Hx as [->| ->]; reflexivity.
    + destruct s as [|l s]; cbn [app]; [|exact H1].
      destruct Hb as [|x b Hx Hb]; [exact I|]. right. destruct Hx as [->| ->]; reflexivity.
Qed.

Lemma decode_plain (P : N -> Prop) a s b : ows a -> ows b -> Forall P s -> (forall c, P c -> c < 0x80) ->
  no_escape s -> pct_decode_str (a ++ s ++ b) = Some (a ++ s ++ b).
Proof.
  intros Ha Hb Hs HP Hn. apply pct_raw_roundtrip.
  - unfold wf_str. apply forallb_forall. intros c Hc.
    assert (c < 0x80) as Hlt.
    { rewrite !in_app_iff in Hc. unfold ows in Ha, Hb. rewrite List.Forall_forall in Ha, Hb, Hs.
      destruct Hc as [Hc|[Hc|Hc]]; [destruct (Ha c Hc); lia|apply HP, Hs, Hc|destruct (Hb c Hc); lia]. }
    unfold is_scalar. lia.
  - apply no_escape_npx. apply npx_ows_l; [exact Ha|]. apply npx_ows_r; [apply no_escape_npx, Hn|exact Hb].
Qed.

Lemma key_chars k : permitted_key k -> Forall (fun c => c < 0x80) k.
Proof. intros [_ H]. eapply Forall_impl; [exact H|]. intros c [Hc _]. lia. Qed.

Lemma prop_chars p : prop_ok p -> lacks SEMI (prop_text p) /\ lacks COMMA (prop_text p).
Proof.
  intros (H1 & H2 & H3 & _). assert (forall c, c = 44 \/ c = 59 -> lacks c (prop_text p)) as G.
  { intros c Hc Hin. unfold prop_text in Hin. rewrite !in_app_iff in Hin.
    unfold ows in H1, H2. rewrite List.Forall_forall in H1, H2, H3.
    destruct Hin as [Hin|[Hin|Hin]]; [destruct (H1 c Hin); lia| |destruct (H2 c Hin); lia].
    specialize (H3 c Hin). unfold baggage_octet in H3. lia. }
  split; apply G; [right|left]; reflexivity.
Qed.

Lemma split_props a ps : lacks SEMI a -> Forall (fun p => lacks SEMI (prop_text p)) ps ->
  split SEMI (a ++ flat_map (fun p => SEMI :: prop_text p) ps) = a :: map prop_text ps.
Proof.
  intros Ha Hps. revert a Ha. induction Hps as [|p ps Hp _ IH]; intros a Ha.
  - cbn. rewrite app_nil_r. apply split_lacks, Ha.
  - cbn [flat_map app map]. rewrite split_app by exact Ha. rewrite IH by exact Hp. reflexivity.
Qed.

(** One member is read as it is meant. *)
Lemma member_read m v : means m v -> bg_parse_item (member_text m) = Some (m_key m, (v, metadata_of m)).
Proof.
  intros (Ho1 & Ho2 & Ho3 & Ho4 & Hk & Hkn & Heq & Hv & Htv & Ht & Hps).
  unfold bg_parse_item, member_text.
  replace (m_pre m ++ m_key m ++ m_post m ++ [EQUALS] ++ m_vpre m ++ m_text m ++ m_vpost m ++
           flat_map (fun p => SEMI :: prop_text p) (m_props m))
    with (((m_pre m ++ m_key m ++ m_post m) ++ EQUALS :: (m_vpre m ++ m_text m ++ m_vpost m)) ++
          flat_map (fun p => SEMI :: prop_text p) (m_props m)) by (repeat (rewrite <- !app_assoc; cbn [app]); reflexivity).
  assert (forall c, In c [COMMA; SEMI; EQUALS] -> lacks c (m_pre m ++ m_key m ++ m_post m)) as Hlk.
  { intros c Hc Hin. rewrite !in_app_iff in Hin. destruct Hin as [Hin|[Hin|Hin]].
    - exact (ows_lacks _ c Ho1 Hc Hin).
    - exact (key_lacks (m_key m) c Hk Hc Hin).
    - exact (ows_lacks _ c Ho2 Hc Hin). }
  assert (forall c, In c [COMMA; SEMI; EQUALS] -> lacks c (m_vpre m ++ m_text m ++ m_vpost m)) as Hlv.
  { intros c Hc Hin. rewrite !in_app_iff in Hin. destruct Hin as [Hin|[Hin|Hin]].
    - exact (ows_lacks _ c Ho3 Hc Hin).
    - pose proof (pct_text_chars _ _ Ht) as Hch. rewrite List.Forall_forall in Hch. specialize (Hch c Hin). cbn in Hc.
      unfold COMMA, SEMI, EQUALS in Hc. destruct Hc as [Hc|[Hc|[Hc|[]]]]; [lia|lia|]. subst c. exact (Heq Hin).
    - exact (ows_lacks _ c Ho4 Hc Hin). }
  rewrite split_props.
  2:{ intros Hin. apply in_app_iff in Hin as [Hin|[Hin|Hin]]; [apply (Hlk SEMI)|discriminate Hin|apply (Hlv SEMI)];
        cbn; tauto. }
  2:{ eapply Forall_impl; [exact Hps|]. intros p Hp. apply prop_chars, Hp. }
  rewrite split_app by (apply Hlk; cbn; tauto). rewrite split_lacks by (apply Hlv; cbn; tauto).
  rewrite (decode_plain _ _ _ _ Ho1 Ho2 (key_chars _ Hk)) by (cbn; auto).
  rewrite (decode_value _ _ _ _ Ho3 Ho4 Hv Ht). cbv zeta.
  rewrite trim_pad by (first [apply ows_ws; assumption|apply trim_key, Hk]).
  rewrite trim_pad by (first [apply ows_ws; assumption|exact Htv]).
  repeat f_equal. unfold metadata_of. f_equal. clear -Hps. induction Hps as [|p ps Hp _ IH]; [reflexivity|].
  cbn [map flat_map]. destruct Hp as (H1 & H2 & H3 & H4 & H5). unfold prop_text at 1.
  rewrite (decode_plain _ _ _ _ H1 H2 H3) by (try exact H4; cbn; unfold baggage_octet; intros c Hc; lia).
  cbn [app map]. rewrite trim_pad by (first [apply ows_ws; assumption|exact H5]). f_equal. exact IH.
Qed.

Lemma member_lacks_comma m v : means m v -> lacks COMMA (member_text m).
Proof.
  intros (Ho1 & Ho2 & Ho3 & Ho4 & Hk & Hkn & Heq & Hv & Htv & Ht & Hps) Hin. unfold member_text in Hin.
  assert (In COMMA [COMMA; SEMI; EQUALS]) as Hc by (cbn; tauto).
  rewrite !in_app_iff in Hin.
  destruct Hin as [Hin|[Hin|[Hin|[Hin|[Hin|[Hin|[Hin|Hin]]]]]]].
  - exact (ows_lacks _ _ Ho1 Hc Hin).
  - exact (key_lacks _ _ Hk Hc Hin).
  - exact (ows_lacks _ _ Ho2 Hc Hin).
  - destruct Hin as [Hin|[]]. discriminate Hin.
  - exact (ows_lacks _ _ Ho3 Hc Hin).
  - pose proof (pct_text_chars _ _ Ht) as Hch. rewrite List.Forall_forall in Hch. specialize (Hch _ Hin).
    unfold COMMA in Hch. lia.
  - exact (ows_lacks _ _ Ho4 Hc Hin).
  - apply in_flat_map in Hin as (p & Hp & [Hin|Hin]); [discriminate Hin|]. rewrite List.Forall_forall in Hps.
    exact (proj2 (prop_chars p (Hps p Hp)) Hin).
Qed.

Lemma join_props_trim ps : Forall (fun p => trim p = p) ps -> trim (join [SEMI] ps) = join [SEMI] ps.
Proof.
  intros H. apply trim_id.
  - destruct ps as [|p ps]; [exact I|]. inversion H as [|? ? Hp _]; subst. destruct (trim_ends p Hp) as [Hp1 _].
    destruct ps; cbn [join]; destruct p; cbn [app]; try exact Hp1; try exact I; reflexivity.
  - induction H as [|p ps Hp Hps IH]; [exact I|]. destruct (trim_ends p Hp) as [_ Hp2]. cbn [join].
    destruct ps as [|q ps]; [exact Hp2|]. rewrite !rev_app_distr.
    assert (forall z : list N, match z with c :: _ => is_ws c = false | [] => True end ->
              match (z ++ rev [SEMI]) ++ rev p with c :: _ => is_ws c = false | [] => True end) as G.
    { intros [|c r] Hz; [cbn; reflexivity|exact Hz]. }
    exact (G _ IH).
Qed.

(** * Theorems *)

(** C82.  A header of well-formed members with distinct keys, within the limits
    of 64 members and 8192 bytes, is read as exactly the entries it means. *)
Theorem C82_reads_w3c_headers : forall (ms : list member) (vs : list str),
  ms <> [] -> Forall2 means ms vs -> NoDup (map m_key ms) -> (List.length ms <= 64)%nat ->
  fold_right (fun e acc => blen (m_key (fst e)) + blen (snd e) + blen (metadata_of (fst e)) + acc) 0 (combine ms vs) <= 8192 ->
  bg_map (bg_extract (header_text ms)) =
    list_to_map (map (fun e => (m_key (fst e), (snd e, metadata_of (fst e)))) (combine ms vs)).
Proof.
  intros ms vs Hne Hm Hnd Hlen Hsize. unfold bg_extract, header_text.
  rewrite split_join.
  2:{ destruct ms; [contradiction|discriminate]. }
  2:{ clear -Hm. induction Hm as [|m v ms vs H _ IH]; [constructor|]. constructor; [|exact IH].
      apply (member_lacks_comma m v H). }
  assert (flat_map (fun i => match bg_parse_item i with Some e => [e] | None => [] end) (map member_text ms) =
          map (fun e => (m_key (fst e), (snd e, metadata_of (fst e)))) (combine ms vs)) as ->.
  { clear -Hm. induction Hm as [|m v ms vs H _ IH]; [reflexivity|]. cbn [map flat_map combine].
    rewrite (member_read m v H), IH. reflexivity. }
  assert (List.length (combine ms vs) = List.length ms) as Hl.
  { rewrite combine_length, (Forall2_length _ _ _ Hm). lia. }
  assert (map fst (map (fun e : member * str => (m_key (fst e), (snd e, metadata_of (fst e)))) (combine ms vs)) = map m_key ms) as Hfst.
  { clear -Hm. induction Hm as [|m v ms vs H _ IH]; [reflexivity|]. cbn. rewrite IH. reflexivity. }
  assert (forall x, In x (combine ms vs) -> means (fst x) (snd x)) as Hall.
  { clear -Hm. induction Hm as [|m v ms vs H _ IH]; intros x Hx; [destruct Hx|]. destruct Hx as [<-|Hx]; [exact H|apply IH, Hx]. }
  unfold bg_from_iter. rewrite (from_items _ bg_new 0 BInv_new eq_refl).
  - cbn [bg_map bg_new]. apply (right_id_L ∅ (∪)).
  - intros k e _. cbn [bg_map bg_new]. apply lookup_empty.
  - rewrite Hfst. exact Hnd.
  - intros k v m Hin. apply in_map_iff in Hin as (x & E & Hx). injection E as <- <- <-.
    destruct (Hall x Hx) as (_ & _ & _ & _ & Hk & _ & _ & _ & _ & _ & Hps). split; [exact Hk|].
    apply join_props_trim. clear -Hps. induction Hps as [|p ps Hp _ IH]; [constructor|].
    constructor; [apply Hp|exact IH].
  - cbn [bg_map bg_new]. rewrite map_size_empty, map_length, Hl. lia.
  - cbn [bg_map bg_new]. rewrite content_empty. etransitivity; [|exact Hsize].
    clear. induction (combine ms vs) as [|x l IH]; [cbn; lia|]. cbn [map fold_right]. unfold esize at 1. cbn [fst snd]. lia.
Qed.
Print Assumptions C82_reads_w3c_headers.

(** C82.  A member without '=' is skipped and does not disturb the others. *)
Theorem C82_members_without_value_skipped : forall before bad after,
  lacks COMMA before -> lacks COMMA bad -> lacks EQUALS bad ->
  bg_extract (before ++ COMMA :: bad ++ COMMA :: after) = bg_extract (before ++ COMMA :: after).
Proof.
  intros before bad after H1 H2 H3. unfold bg_extract. rewrite !split_app by assumption.
  cbn [flat_map]. assert (bg_parse_item bad = None) as ->; [|reflexivity].
  unfold bg_parse_item. pose proof (split_piece_incl SEMI bad) as Hp.
  destruct (split SEMI bad) as [|p ps]; [reflexivity|].
  rewrite split_lacks; [reflexivity|]. intros Hin. apply H3. apply (Hp p EQUALS); [left; reflexivity|exact Hin].
Qed.
Print Assumptions C82_members_without_value_skipped.

(** C129 refuted for values that contain '=' (which the grammar allows): the
    value is cut at its first '='. *)
Theorem C129_value_cut_at_equals_refuted : forall k v rest,
  lacks EQUALS k -> lacks SEMI k -> lacks COMMA k ->
  lacks EQUALS v -> lacks SEMI v -> lacks COMMA v -> lacks SEMI rest -> lacks COMMA rest ->
  forall after,
  bg_extract (k ++ EQUALS :: v ++ EQUALS :: rest ++ COMMA :: after) = bg_extract (k ++ EQUALS :: v ++ COMMA :: after).
Proof.
  intros k v rest K1 K2 K3 V1 V2 V3 R2 R3 after. unfold bg_extract.
  assert (forall c a b, c <> EQUALS -> lacks c a -> lacks c b -> lacks c (a ++ EQUALS :: b)) as L.
  { intros c a b Hc Ha Hb Hin. apply in_app_iff in Hin as [Hin|[Hin|Hin]]; [exact (Ha Hin)|congruence|exact (Hb Hin)]. }
  replace (k ++ EQUALS :: v ++ EQUALS :: rest ++ COMMA :: after)
    with ((k ++ EQUALS :: v ++ EQUALS :: rest) ++ COMMA :: after)
    by (rewrite <- app_assoc; cbn [app]; rewrite <- app_assoc; reflexivity).
  replace (k ++ EQUALS :: v ++ COMMA :: after) with ((k ++ EQUALS :: v) ++ COMMA :: after)
    by (rewrite <- app_assoc; reflexivity).
  rewrite !split_app by (repeat (apply L; [discriminate|assumption|]); assumption).
  cbn [flat_map].
  assert (bg_parse_item (k ++ EQUALS :: v ++ EQUALS :: rest) = bg_parse_item (k ++ EQUALS :: v)) as ->; [|reflexivity].
  unfold bg_parse_item.
  rewrite (split_lacks SEMI (k ++ EQUALS :: v ++ EQUALS :: rest)) by (repeat (apply L; [discriminate|assumption|]); assumption).
  rewrite (split_lacks SEMI (k ++ EQUALS :: v)) by (apply L; [discriminate|assumption|assumption]).
  rewrite !split_app by assumption.
  rewrite (split_lacks EQUALS v) by assumption. reflexivity.
Qed.
Print Assumptions C129_value_cut_at_equals_refuted.

Example C82_equals_witness :
  Forall baggage_octet (of_string "a=b"%string) /\
  bg_get (bg_extract (of_string "k=a=b,l=1"%string)) (of_string "k"%string) = Some (of_string "a"%string).
Proof. split; [|vm_compute; reflexivity]. change (of_string "a=b"%string) with [97; 61; 98].
  repeat (apply List.Forall_cons; [unfold baggage_octet; lia|]). constructor. Qed.

(** C129 refuted for keys containing '%' (a token character, not an escape). *)
Theorem C129_key_decoded_refuted : exists k,
  permitted_key k /\ bg_get (bg_extract (k ++ of_string "=1"%string)) k = None.
Proof.
  exists (of_string "a%41"%string). split; [|vm_compute; reflexivity].
  split; [discriminate|]. change (of_string "a%41"%string) with [97; 37; 52; 49].
  repeat (apply List.Forall_cons; [split; [lia|cbn; intros H; repeat (destruct H as [H|H]; [discriminate H|]); exact H]|]).
  constructor.
Qed.
Print Assumptions C129_key_decoded_refuted.

(** The grammar of the theorem is inhabited by a header with white space,
    escapes in both cases and properties. *)
Example C82_nonvacuous :
  let m1 := mk_member [32] (of_string "k1"%string) [9] [32] (of_string "a%2Cb%c3%a9"%string) [32]
              [([32], (of_string "p=1"%string, [32])); ([], (of_string "q"%string, []))] in
  let m2 := mk_member [] (of_string "k2"%string) [] [] [] [] [] in
  Forall2 means [m1; m2] [of_string "a,b"%string ++ [233]; []] /\
  header_text [m1; m2] = [32] ++ of_string "k1"%string ++ [9] ++ of_string "= a%2Cb%c3%a9 ; p=1 ;q,k2="%string.
Proof.
  cbv zeta. split; [|vm_compute; reflexivity].
  assert (forall k, permitted_key (107 :: [k]) <-> token_char k) as Hk.
  { intros k. split; [intros [_ H]; inversion H as [|? ? _ H']; inversion H'; assumption|].
    intros H. split; [discriminate|]. apply List.Forall_cons; [|apply List.Forall_cons; [exact H|constructor]].
    split; [lia|]. cbn. intros G. repeat (destruct G as [G|G]; [discriminate G|]). exact G. }
  assert (token_char 49 /\ token_char 50) as [T1 T2].
  { split; (split; [lia|]); cbn; intros G; repeat (destruct G as [G|G]; [discriminate G|]); exact G. }
  assert (forall o, forallb (fun c => (c =? 32) || (c =? 9)) o = true -> ows o) as Ho.
  { intros o H. apply List.Forall_forall. intros c Hc. rewrite forallb_forall in H. specialize (H c Hc). lia. }
  assert (forall s, forallb (fun c => (0x2D <=? c) && (c <=? 0x3A) || (0x3C <=? c) && (c <=? 0x5B) || (0x5D <=? c) && (c <=? 0x7E)) s = true ->
            Forall (fun c => baggage_octet c \/ c = 32 \/ c = 9) s) as Hp.
  { intros s H. apply List.Forall_forall. intros c Hc. rewrite forallb_forall in H. specialize (H c Hc).
    left. unfold baggage_octet. lia. }
  constructor; [|constructor; [|constructor]].
  - unfold means. cbn [m_pre m_key m_post m_vpre m_text m_vpost m_props].
    split; [apply Ho; reflexivity|]. split; [apply Ho; reflexivity|].
    split; [apply Ho; reflexivity|]. split; [apply Ho; reflexivity|].
    split; [apply Hk, T1|]. split; [apply npxb_ok; reflexivity|].
    split; [cbn; intros G; repeat (destruct G as [G|G]; [discriminate G|]); exact G|].
    split; [reflexivity|]. split; [reflexivity|]. split.
    + change (utf8 (of_string "a,b" ++ [233])) with [97; 2 * 16 + 12; 98; 12 * 16 + 3; 10 * 16 + 9].
      change (of_string "a%2Cb%c3%a9") with [97; 37; 50; 67; 98; 37; 99; 51; 37; 97; 57].
      apply pt_octet; [unfold baggage_octet; lia|lia|]. apply pt_escape; [reflexivity|reflexivity|].
      apply pt_octet; [unfold baggage_octet; lia|lia|]. apply pt_escape; [reflexivity|reflexivity|].
      apply pt_escape; [reflexivity|reflexivity|]. apply pt_nil.
    + apply List.Forall_cons; [|apply List.Forall_cons; [|constructor]]; unfold prop_ok; cbn [fst snd];
        (split; [apply Ho; reflexivity|]); (split; [apply Ho; reflexivity|]); (split; [apply Hp; reflexivity|]);
        (split; [apply npxb_ok; reflexivity|reflexivity]).
  - unfold means. cbn [m_pre m_key m_post m_vpre m_text m_vpost m_props].
    split; [constructor|]. split; [constructor|]. split; [constructor|]. split; [constructor|].
    split; [apply Hk, T2|]. split; [apply npxb_ok; reflexivity|]. split; [intros []|].
    split; [reflexivity|]. split; [reflexivity|]. split; [constructor|constructor].
Qed.
