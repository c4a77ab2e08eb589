(** C163, C164: the address that the Jaeger remote sampler asks. *)
From Coq Require Import String List NArith Bool Lia.
From Coq Require Import ZifyBool ZifyNat ZifyN.
From Verif Require BaggageProofs.
From Verif Require Import Str StrProofs BaggageModel RemoteModel.
Import ListNotations.
Local Open Scope N_scope.

(** * How a server reads a query
    Pieces between '&', empty ones skipped; name and value around the first '='; '+' is a
    space and '%' with two hexadecimal digits a byte of UTF-8. *)
Definition form_decode (s : str) : option str := utf8_decode (pct_decode (utf8 (map (fun c => if c =? 43 then 32 else c) s))).
Definition read_pair (p : str) : list (option str * option str) :=
  match p with
  | [] => []
  | _ => match split_once 61 p with
         | Some (k, v) => [(form_decode k, form_decode v)]
         | None => [(form_decode p, Some [])]
         end
  end.
Definition read_query (q : option str) : list (option str * option str) :=
  match q with Some q => flat_map read_pair (split 38 q) | None => [] end.

Lemma split_snoc c a b : lacks c b -> split c (a ++ c :: b) = split c a ++ [b].
Proof.
  intros H. induction a as [|x a IH]; cbn [List.app split].
  - rewrite N.eqb_refl, (split_lacks c b H). reflexivity.
  - destruct (x =? c); rewrite IH; [reflexivity|]. pose proof (split_nonempty c a). destruct (split c a); [contradiction|reflexivity].
Qed.
Definition form_char (x : N) : Prop := x < 128 /\ x <> 38 /\ x <> 61.
Lemma hex_upper_char d : d < 16 -> form_char (hex_char_upper d) /\ hex_char_upper d <> 43.
Proof. intros H. unfold hex_char_upper, form_char. destruct (N.ltb_spec d 10); lia. Qed.
Lemma form_byte_chars b : b < 256 -> Forall form_char (form_byte b).
Proof.
  intros H. unfold form_byte. destruct (is_upper b || is_lower b || is_digit b || (b =? 42) || (b =? 45) || (b =? 46) || (b =? 95)) eqn:E.
  - constructor; [|constructor]. unfold is_upper, is_lower, is_digit, between, form_char in *. lia.
  - destruct (b =? 32); [repeat constructor; discriminate|]. unfold pct_byte.
    assert (b / 16 < 16) by (apply N.div_lt_upper_bound; lia). assert (b mod 16 < 16) by (apply N.mod_lt; lia).
    constructor; [repeat split; discriminate|]. constructor; [apply hex_upper_char; assumption|]. constructor; [apply hex_upper_char; assumption|constructor].
Qed.
Lemma form_chars bs : Forall (fun b => b < 256) bs -> Forall form_char (flat_map form_byte bs).
Proof. induction 1 as [|b bs Hb _ IH]; [constructor|]. cbn [flat_map]. apply Forall_app. split; [apply form_byte_chars, Hb|exact IH]. Qed.
Lemma encode_chars s : wf_str s = true -> Forall form_char (form_encode s).
Proof. intros H. apply form_chars, BaggageProofs.utf8_bytes, H. Qed.
Lemma form_lacks c s : c = 38 \/ c = 61 -> Forall form_char s -> lacks c s.
Proof. intros Hc H Hin. rewrite Forall_forall in H. destruct (H c Hin) as (_ & H1 & H2). destruct Hc; subst; contradiction. Qed.

Lemma decode_bytes bs : Forall (fun b => b < 256) bs ->
  pct_decode (map (fun c => if c =? 43 then 32 else c) (flat_map form_byte bs)) = bs.
Proof.
  induction 1 as [|b bs Hb _ IH]; [reflexivity|]. cbn [flat_map]. rewrite map_app. unfold form_byte at 1.
  destruct (is_upper b || is_lower b || is_digit b || (b =? 42) || (b =? 45) || (b =? 46) || (b =? 95)) eqn:E.
  - unfold is_upper, is_lower, is_digit, between in E. cbn [map List.app]. destruct (N.eqb_spec b 43); [lia|].
    rewrite BaggageProofs.pct_decode_unfold by lia. rewrite IH. reflexivity.
  - destruct (N.eqb_spec b 32) as [->|Hne].
    + cbn [map List.app N.eqb Pos.eqb]. rewrite BaggageProofs.pct_decode_unfold by discriminate. rewrite IH. reflexivity.
    + assert (Em : map (fun c => if c =? 43 then 32 else c) (pct_byte b) = pct_byte b).
      { unfold pct_byte. cbn [map]. assert (b / 16 < 16) by (apply N.div_lt_upper_bound; lia). assert (b mod 16 < 16) by (apply N.mod_lt; lia).
        destruct (N.eqb_spec (hex_char_upper (b / 16)) 43) as [X|_]; [exfalso; apply (hex_upper_char (b / 16)); assumption|].
        destruct (N.eqb_spec (hex_char_upper (b mod 16)) 43) as [X|_]; [exfalso; apply (hex_upper_char (b mod 16)); assumption|]. reflexivity. }
      rewrite Em, BaggageProofs.pct_decode_byte by exact Hb. rewrite IH. reflexivity.
Qed.
Lemma form_roundtrip s : wf_str s = true -> form_decode (form_encode s) = Some s.
Proof.
  intros H. unfold form_decode. rewrite utf8_ascii.
  - unfold form_encode. rewrite decode_bytes by (apply BaggageProofs.utf8_bytes, H). apply utf8_roundtrip, H.
  - pose proof (encode_chars s H) as Hc. rewrite forallb_forall. intros x Hx. apply in_map_iff in Hx. destruct Hx as (y & <- & Hy).
    rewrite Forall_forall in Hc. destruct (Hc y Hy) as (H1 & _). destruct (y =? 43); [reflexivity|]. apply N.ltb_lt. exact H1.
Qed.
Lemma encode_not_empty s : s <> [] -> form_encode s <> [].
Proof.
  destruct s as [|c s]; [contradiction|]. intros _ H. unfold form_encode, utf8 in H. cbn [flat_map] in H. rewrite flat_map_app in H.
  apply app_eq_nil in H. destruct H as [H _]. unfold utf8_char in H.
  assert (Hb : forall b l, flat_map form_byte (b :: l) <> []).
  { intros b l. cbn [flat_map]. unfold form_byte, pct_byte. destruct (_ || _); [discriminate|]. destruct (b =? 32); discriminate. }
  destruct (c <? 0x80); [exact (Hb _ _ H)|]. destruct (c <? 0x800); [exact (Hb _ _ H)|]. destruct (c <? 0x10000); exact (Hb _ _ H).
Qed.
Lemma append_read q k v : k <> [] -> wf_str k = true -> wf_str v = true -> read_query (Some (append_pair q k v)) = read_query q ++ [(Some k, Some v)].
Proof.
  intros Hne Hk Hv. pose proof (encode_chars k Hk) as Ck. pose proof (encode_chars v Hv) as Cv.
  assert (Hp : read_pair (form_encode k ++ 61 :: form_encode v) = [(Some k, Some v)]).
  { unfold read_pair. rewrite split_once_app by (apply form_lacks; [right; reflexivity|exact Ck]). rewrite !form_roundtrip by assumption.
    destruct (form_encode k ++ 61 :: form_encode v) eqn:E; [|reflexivity]. destruct (form_encode k); discriminate E. }
  assert (Hl : lacks 38 (form_encode k ++ 61 :: form_encode v)).
  { intros X. apply in_app_or in X. destruct X as [X|[X|X]]; [|discriminate X|]; revert X; apply form_lacks; auto. }
  unfold append_pair. destruct q as [[|c q]|]; cbn [List.app read_query].
  - rewrite (split_lacks 38 _ Hl). cbn [flat_map split read_pair List.app]. rewrite Hp. reflexivity.
  - rewrite <- app_assoc. change ((c :: q ++ [38] ++ form_encode k ++ 61 :: form_encode v)) with ((c :: q) ++ 38 :: (form_encode k ++ 61 :: form_encode v)).
    rewrite split_snoc by exact Hl. rewrite flat_map_app. cbn [flat_map]. rewrite Hp. reflexivity.
  - rewrite (split_lacks 38 _ Hl). cbn [flat_map List.app]. rewrite Hp. reflexivity.
Qed.

(** Whatever the service is called, the server is asked for it by that name, at the given
    address and with the parameters that were already in it. *)
Theorem C163_service_asked_for : forall parse endpoint service u, endpoint <> [] -> service <> [] -> wf_str service = true -> parse endpoint = Some u ->
  exists u', get_endpoint parse endpoint service = Some u' /\ u_base u' = u_base u /\
    read_query (u_query u') = read_query (u_query u) ++ [(Some (of_string "service"), Some service)].
Proof.
  intros parse e s u He Hs Hwf Hp. unfold get_endpoint. destruct e as [|c e]; [contradiction|]. destruct s as [|d s]; [contradiction|].
  rewrite Hp. eexists. split; [reflexivity|]. split; [reflexivity|]. apply append_read; [discriminate|reflexivity|exact Hwf].
Qed.
Print Assumptions C163_service_asked_for.
(** The text of the address: what is before the question mark is kept. *)
Theorem C163_address : forall parse endpoint service u, endpoint <> [] -> service <> [] -> wf_str service = true -> parse endpoint = Some u ->
  exists u' q, get_endpoint parse endpoint service = Some u' /\ url_text u' = u_base u ++ of_string "?" ++ q /\
    read_query (Some q) = read_query (u_query u) ++ [(Some (of_string "service"), Some service)].
Proof.
  intros parse e s u He Hs Hwf Hp. destruct (C163_service_asked_for parse e s u He Hs Hwf Hp) as (u' & E1 & E2 & E3). unfold get_endpoint in E1.
  destruct e as [|c e]; [contradiction|]. destruct s as [|d s]; [contradiction|]. rewrite Hp in E1. injection E1 as <-. eexists _, _. split; [unfold get_endpoint; rewrite Hp; reflexivity|].
  split; [reflexivity|exact E3].
Qed.
Print Assumptions C163_address.
(** Building fails exactly when one of them is empty; an address that is not a URL is
    replaced by the default one without a word. *)
Theorem C163_errors : forall parse endpoint service,
  (get_endpoint parse endpoint service = None <-> endpoint = [] \/ service = []) /\
  (endpoint <> [] -> service <> [] -> wf_str service = true -> parse endpoint = None -> exists u',
     get_endpoint parse endpoint service = Some u' /\ u_base u' = of_string "http://localhost:5778/sampling" /\
     read_query (u_query u') = [(Some (of_string "service"), Some service)]).
Proof.
  intros parse e s. split.
  - unfold get_endpoint. destruct e as [|c e]; [split; auto|]. destruct s as [|d s]; [split; auto|]. split; [discriminate|intros [H|H]; discriminate H].
  - intros He Hs Hwf Hp. unfold get_endpoint. destruct e as [|c e]; [contradiction|]. destruct s as [|d s]; [contradiction|].
    rewrite Hp. eexists. split; [reflexivity|]. split; [reflexivity|]. apply append_read; [discriminate|reflexivity|exact Hwf].
Qed.
Print Assumptions C163_errors.

(** with_endpoint says that a service name in the address is ignored.  It is not: it comes
    first, and servers that take the first value are asked for that service. *)
Definition first_value (k : str) (l : list (option str * option str)) : option str :=
  match find (fun kv => match fst kv with Some k' => str_eqb k' k | None => false end) l with Some (_, v) => v | None => None end.
Theorem C164_service_in_endpoint_ignored_refuted : exists parse endpoint service u',
  get_endpoint parse endpoint service = Some u' /\ first_value (of_string "service") (read_query (u_query u')) <> Some service /\
  length (filter (fun kv => match fst kv with Some k => str_eqb k (of_string "service") | None => false end) (read_query (u_query u'))) = 2%nat.
Proof.
  exists (fun _ => Some (mk_url (of_string "http://h/sampling") (Some (of_string "service=old")))), (of_string "http://h/sampling?service=old"), (of_string "new").
  eexists. split; [reflexivity|]. split; [vm_compute; discriminate|vm_compute; reflexivity].
Qed.
Print Assumptions C164_service_in_endpoint_ignored_refuted.

Example C163_nonvacuous : option_map url_text (get_endpoint (fun _ => Some (mk_url (of_string "http://h/s") (Some (of_string "a=b")))) (of_string "http://h/s?a=b") (of_string "my service&x"))
  = Some (of_string "http://h/s?a=b&service=my+service%26x").
Proof. vm_compute. reflexivity. Qed.
