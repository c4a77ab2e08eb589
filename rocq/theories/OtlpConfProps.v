(** Configuration and life cycle of the OTLP exporters (C65, C81). *)
From Coq Require Import String List NArith Bool Lia Permutation ZifyBool ZifyN.
From Verif Require PropSpec PropProofs.
From Verif Require Import Str StrProofs OtlpConfModel.
Import ListNotations.
Local Open Scope N_scope.

(** ** Specification *)
(** A variable that is set to something usable. *)
Definition usable {A} (parse : str -> option A) (v : option str) (a : A) : Prop := exists s, v = Some s /\ parse s = Some a.
Definition unusable {A} (parse : str -> option A) (v : option str) : Prop := forall s, v = Some s -> parse s = None.
Lemma usable_dec {A} (parse : str -> option A) v : (exists a, bind v parse = Some a /\ usable parse v a) \/ (bind v parse = None /\ unusable parse v).
Proof.
  destruct v as [s|]; cbn; [|right; split; [reflexivity|intros s E; discriminate]]. destruct (parse s) as [a|] eqn:E.
  - left. exists a. split; [reflexivity|]. exists s. auto.
  - right. split; [reflexivity|]. intros s' X. injection X as <-. exact E.
Qed.
Lemma usable_bind {A} (parse : str -> option A) v a : usable parse v a -> bind v parse = Some a.
Proof. intros (s & -> & E). exact E. Qed.
Lemma unusable_bind {A} (parse : str -> option A) v : unusable parse v -> bind v parse = None.
Proof. destruct v as [s|]; [|reflexivity]. intros H. exact (H s eq_refl). Qed.

(** ** Timeout *)
(** A variable holding a number of milliseconds below 2^64, in decimal. *)
Definition millis (v : option str) (ms : N) : Prop := exists s, v = Some s /\ PropSpec.dec_field s ms /\ ms < 2 ^ 64.
Lemma millis_parse v ms : millis v ms -> bind v parse_timeout = Some (ms * 1000000).
Proof. intros (s & -> & H). cbn [bind]. unfold parse_timeout. assert (0 < 2 ^ 64) as B by reflexivity. rewrite (proj2 (PropProofs.parse_dec_spec (2 ^ 64) s ms B) H). reflexivity. Qed.
Lemma no_millis_parse v : (forall ms, ~ millis v ms) -> bind v parse_timeout = None.
Proof.
  intros H. destruct v as [s|]; [|reflexivity]. cbn [bind]. unfold parse_timeout. destruct (parse_dec (2 ^ 64) s) as [ms|] eqn:E; [|reflexivity]. exfalso. apply (H ms). exists s. split; [reflexivity|].
  apply PropProofs.parse_dec_spec; [reflexivity|exact E].
Qed.
(** The four levels, in order, in nanoseconds; a variable that is not a number of
    milliseconds below 2^64 counts as unset; the default is ten seconds. *)
Theorem C65_timeout : forall env sg,
  let specific := env (sig_var sg "TIMEOUT") in let general := env (of_string "OTEL_EXPORTER_OTLP_TIMEOUT") in
  (forall t, resolve_timeout env sg (Some t) = t) /\
  (forall ms, millis specific ms -> resolve_timeout env sg None = ms * 1000000) /\
  (forall ms, (forall x, ~ millis specific x) -> millis general ms -> resolve_timeout env sg None = ms * 1000000) /\
  ((forall x, ~ millis specific x) -> (forall x, ~ millis general x) -> resolve_timeout env sg None = 10000000000).
Proof.
  intros env sg specific general. subst specific general. unfold resolve_timeout, V_TIMEOUT. split; [reflexivity|]. split; [intros ms H; rewrite (millis_parse _ _ H); reflexivity|].
  split.
  - intros t H1 H2. rewrite (no_millis_parse _ H1), (millis_parse _ _ H2). reflexivity.
  - intros H1 H2. rewrite (no_millis_parse _ H1), (no_millis_parse _ H2). reflexivity.
Qed.
Print Assumptions C65_timeout.
(** The names of the variables and the paths. *)
Theorem C65_variables : forall k,
  sig_var Traces k = of_string "OTEL_EXPORTER_OTLP_TRACES_" ++ of_string k /\
  sig_var Metrics k = of_string "OTEL_EXPORTER_OTLP_METRICS_" ++ of_string k /\
  sig_var Logs k = of_string "OTEL_EXPORTER_OTLP_LOGS_" ++ of_string k /\
  sig_path Traces = of_string "/v1/traces" /\ sig_path Metrics = of_string "/v1/metrics" /\ sig_path Logs = of_string "/v1/logs".
Proof. intros k. repeat split. Qed.
Print Assumptions C65_variables.

(** ** Endpoint *)
Section endpoint.
Context {uri : Type} (parse_uri : str -> option uri).
(** [joined e p] is the endpoint and the path with exactly one slash between them, when the
    endpoint ends in at most one. *)
Inductive joined : list N -> list N -> list N -> Prop :=
| joined_slash b p : joined (b ++ [47]) (47 :: p) (b ++ 47 :: p)
| joined_bare e p : (forall b, e <> b ++ [47]) -> joined e (47 :: p) (e ++ 47 :: p).
Lemma ends_slash_spec s : (ends_slash s = true /\ exists b, s = b ++ [47]) \/ (ends_slash s = false /\ forall b, s <> b ++ [47]).
Proof.
  unfold ends_slash. destruct (rev s) as [|c r] eqn:E.
  - right. split; [reflexivity|]. intros b ->. rewrite rev_app_distr in E. discriminate.
  - assert (s = rev r ++ [c]) as -> by (rewrite <- (rev_involutive s), E; reflexivity). destruct (N.eqb_spec c 47) as [->|H]; [left; eauto|right]. split; [reflexivity|].
    intros b X. apply app_inj_tail in X. tauto.
Qed.
Lemma build_spec e p : exists j, joined e (47 :: p) j /\ build_endpoint_uri parse_uri e (47 :: p) = match parse_uri j with Some u => Ok u | None => InvalidUri j end.
Proof.
  unfold build_endpoint_uri. destruct (ends_slash_spec e) as [[-> (b & ->)]|[-> H]].
  - exists (b ++ 47 :: p). split; [constructor|]. cbn [N.eqb Pos.eqb]. rewrite <- app_assoc. reflexivity.
  - exists (e ++ 47 :: p). split; [constructor; exact H|]. reflexivity.
Qed.
Lemma joined_fun e p j j' : joined e p j -> joined e p j' -> j = j'.
Proof.
  intros H. revert j'. destruct H as [b p|e p H]; intros j' H'.
  - remember (b ++ [47]) as e eqn:Ee. remember (47 :: p) as q eqn:Eq. destruct H' as [b' p'|e p' H'].
    + apply app_inj_tail in Ee. destruct Ee as [-> _]. rewrite Eq. reflexivity.
    + exfalso. exact (H' b Ee).
  - remember (47 :: p) as q eqn:Eq. destruct H' as [b' p'|e p' H'].
    + exfalso. exact (H b' eq_refl).
    + reflexivity.
Qed.
End endpoint.

(** A programmatic endpoint is used as it is, or refused; else a parsable signal variable
    is used as it is; else the general variable with the signal's path joined on, if that
    parses; else the default address with the path. *)
Theorem C65_http_endpoint : forall (uri : Type) (parse_uri : str -> option uri) env sg,
  let general := env (of_string "OTEL_EXPORTER_OTLP_ENDPOINT") in
  let specific := env (sig_var sg "ENDPOINT") in
  (forall e u, parse_uri e = Some u -> resolve_http_endpoint parse_uri env sg (Some e) = Ok u) /\
  (forall e, parse_uri e = None -> resolve_http_endpoint parse_uri env sg (Some e) = InvalidUri e) /\
  (forall u, usable parse_uri specific u -> resolve_http_endpoint parse_uri env sg None = Ok u) /\
  (unusable parse_uri specific ->
    (forall e j u, general = Some e -> joined e (sig_path sg) j -> parse_uri j = Some u -> resolve_http_endpoint parse_uri env sg None = Ok u) /\
    ((forall e j, general = Some e -> joined e (sig_path sg) j -> parse_uri j = None) ->
      forall u, parse_uri (of_string "http://localhost:4318" ++ sig_path sg) = Some u -> resolve_http_endpoint parse_uri env sg None = Ok u)).
Proof.
  intros uri parse_uri env sg general specific. unfold resolve_http_endpoint.
  assert (Hp : exists p, sig_path sg = 47 :: p) by (destruct sg; eexists; reflexivity). destruct Hp as (p & Hp).
  split; [intros e u ->; reflexivity|]. split; [intros e ->; reflexivity|]. split; [intros u H; fold specific; rewrite (usable_bind _ _ _ H); reflexivity|].
  intros Hs. fold specific. rewrite (unusable_bind _ _ Hs). unfold V_ENDPOINT. fold general. rewrite Hp. split.
  - intros e j u Eg Hj Eu. rewrite Eg. cbn [bind]. destruct (build_spec parse_uri e p) as (j' & Hj' & ->). rewrite (joined_fun _ _ _ _ Hj' Hj), Eu. reflexivity.
  - intros Hn u Eu.
    assert (bind general (fun s => ok (build_endpoint_uri parse_uri s (47 :: p))) = None) as ->.
    { destruct general as [e|]; [|reflexivity]. cbn [bind]. destruct (build_spec parse_uri e p) as (j & Hj & ->). rewrite (Hn e j eq_refl Hj). reflexivity. }
    destruct (build_spec parse_uri HTTP_DEFAULT p) as (j & Hj & ->). inversion Hj as [b q F1 F2 F3|e q H E1 E2 E3]; subst.
    + exfalso. apply (f_equal (fun l => last l 0)) in F1. rewrite last_last in F1. vm_compute in F1. discriminate.
    + unfold HTTP_DEFAULT. rewrite Eu. reflexivity.
Qed.
Print Assumptions C65_http_endpoint.

(** gRPC: the same order without a path, but the first value that is set is used even when
    it is not a URI, and then building fails. *)
Theorem C65_grpc_endpoint : forall (uri : Type) (parse_uri : str -> option uri) env sg provided,
  exists e, grpc_endpoint env sg provided = e /\
  resolve_grpc_endpoint parse_uri env sg provided = match parse_uri e with Some u => Ok u | None => InvalidUri e end /\
  (provided = Some e \/ (provided = None /\
    (env (sig_var sg "ENDPOINT") = Some e \/ (env (sig_var sg "ENDPOINT") = None /\
      (env (of_string "OTEL_EXPORTER_OTLP_ENDPOINT") = Some e \/ (env (of_string "OTEL_EXPORTER_OTLP_ENDPOINT") = None /\ e = of_string "http://localhost:4317")))))).
Proof.
  intros uri parse_uri env sg provided. exists (grpc_endpoint env sg provided). split; [reflexivity|]. split; [reflexivity|]. unfold grpc_endpoint, V_ENDPOINT.
  destruct provided as [e|]; [auto|]. right. split; [reflexivity|]. destruct (env (sig_var sg "ENDPOINT")) as [e|]; [auto|]. right. split; [reflexivity|].
  destruct (env (of_string "OTEL_EXPORTER_OTLP_ENDPOINT")) as [e|]; auto.
Qed.
Print Assumptions C65_grpc_endpoint.

(** The documentation of with_endpoint says that the empty string selects the default
    address; building fails instead (an empty string is no URI), for both transports, and
    for gRPC also when a variable is empty. *)
Theorem C121_empty_endpoint_refuted : forall (uri : Type) (parse_uri : str -> option uri) env sg, parse_uri [] = None ->
  resolve_http_endpoint parse_uri env sg (Some []) = InvalidUri [] /\ resolve_grpc_endpoint parse_uri env sg (Some []) = InvalidUri [] /\
  (env (sig_var sg "ENDPOINT") = Some [] -> resolve_grpc_endpoint parse_uri env sg None = InvalidUri []).
Proof.
  intros uri parse_uri env sg H. split; [|split].
  - unfold resolve_http_endpoint. rewrite H. reflexivity.
  - unfold resolve_grpc_endpoint, grpc_endpoint. rewrite H. reflexivity.
  - intros E. unfold resolve_grpc_endpoint, grpc_endpoint. rewrite E, H. reflexivity.
Qed.
Print Assumptions C121_empty_endpoint_refuted.

(** Compression: the same order; the value chosen must be gzip or zstd and compiled in. *)
Theorem C65_compression : forall gzip zstd env sg provided,
  let specific := env (sig_var sg "COMPRESSION") in let general := env (of_string "OTEL_EXPORTER_OTLP_COMPRESSION") in
  let feature c := match c with Gzip => gzip | Zstd => zstd end in
  let name c := match c with Gzip => of_string "gzip" | Zstd => of_string "zstd" end in
  let chosen c := provided = Some c \/ (provided = None /\ (specific = Some (name c) \/ (specific = None /\ general = Some (name c)))) in
  (forall c, resolve_compression gzip zstd env sg provided = COk c <-> chosen c /\ feature c = true) /\
  (forall c, resolve_compression gzip zstd env sg provided = CFeature c <-> chosen c /\ feature c = false) /\
  (resolve_compression gzip zstd env sg provided = CNone <-> provided = None /\ specific = None /\ general = None).
Proof.
  intros gzip zstd env sg provided specific general feature name chosen. subst specific general.
  assert (C : forall c, convert_compression gzip zstd c = if feature c then COk c else CFeature c) by (intros []; reflexivity).
  assert (Nd : name Gzip <> name Zstd) by (vm_compute; discriminate).
  assert (P : forall s, (exists c, s = name c /\ parse_compression gzip zstd s = convert_compression gzip zstd c) \/ ((forall c, s <> name c) /\ parse_compression gzip zstd s = CUnsupported s)).
  { intros s. unfold parse_compression. destruct (str_eqb_spec s (of_string "gzip")) as [->|N1]; [left; exists Gzip; auto|]. destruct (str_eqb_spec s (of_string "zstd")) as [->|N2]; [left; exists Zstd; auto|].
    right. split; [intros []; assumption|reflexivity]. }
  assert (Ni : forall c c', name c = name c' -> c = c') by (intros [] [] X; try reflexivity; exfalso; apply Nd; congruence).
  assert (K : (exists c, chosen c /\ resolve_compression gzip zstd env sg provided = convert_compression gzip zstd c) \/
    ((forall c, ~ chosen c) /\ ((exists s, resolve_compression gzip zstd env sg provided = CUnsupported s /\ ~ (provided = None /\ env (sig_var sg "COMPRESSION") = None /\ env (of_string "OTEL_EXPORTER_OTLP_COMPRESSION") = None)) \/
      (resolve_compression gzip zstd env sg provided = CNone /\ provided = None /\ env (sig_var sg "COMPRESSION") = None /\ env (of_string "OTEL_EXPORTER_OTLP_COMPRESSION") = None)))).
  { unfold resolve_compression, chosen, V_COMPRESSION. destruct provided as [c|]; [left; exists c; auto|].
    destruct (env (sig_var sg "COMPRESSION")) as [s|].
    - destruct (P s) as [(c & -> & ->)|[H ->]]; [left; exists c; auto 6|]. right. split; [|left; exists s; split; [reflexivity|intros (_ & X & _); discriminate]].
      intros c [X|[_ [X|[X _]]]]; try discriminate. injection X as X. eapply H, X.
    - destruct (env (of_string "OTEL_EXPORTER_OTLP_COMPRESSION")) as [s|].
      + destruct (P s) as [(c & -> & ->)|[H ->]]; [left; exists c; auto 8|]. right. split; [|left; exists s; split; [reflexivity|intros (_ & _ & X); discriminate]].
        intros c [X|[_ [X|[_ X]]]]; try discriminate. injection X as X. eapply H, X.
      + right. split; [|right; auto]. intros c [X|[_ [X|[_ X]]]]; discriminate. }
  assert (U : forall c c', chosen c -> chosen c' -> c = c').
  { intros c c' H H'. unfold chosen in *. destruct H as [E|[E [E1|[E1 E2]]]], H' as [F|[F [F1|[F1 F2]]]]; try congruence; apply Ni; congruence. }
  destruct K as [(c & Hc & ->)|[Hn [(s & -> & Hs)|(-> & Hz)]]].
  - rewrite C. split; [|split].
    + intros c'. split; [intros E; destruct (feature c) eqn:Ef; [|discriminate]; injection E as <-; auto|]. intros [H' Ef]. rewrite (U _ _ Hc H'), Ef. reflexivity.
    + intros c'. split; [intros E; destruct (feature c) eqn:Ef; [discriminate|]; injection E as <-; auto|]. intros [H' Ef]. rewrite (U _ _ Hc H'), Ef. reflexivity.
    + split; [destruct (feature c); discriminate|]. intros (E1 & E2 & E3). exfalso. unfold chosen in Hc. rewrite E1, E2, E3 in Hc. destruct Hc as [X|[_ [X|[_ X]]]]; discriminate.
  - split; [|split]; intros; (split; [discriminate|]); try (intros [X _]; exfalso; eapply Hn, X). intros X. exfalso. apply Hs, X.
  - split; [|split]; intros; (split; [try discriminate; auto|]); try (intros [X _]; exfalso; eapply Hn, X). reflexivity.
Qed.
Print Assumptions C65_compression.

(** ** Headers *)
(** [encodes e s]: [e] is [s] with some characters written as the percent-escapes of their
    UTF-8 bytes, in either case of hexadecimal digits, and no other percent sign. *)
Inductive escaped : list N -> list N -> Prop :=
| esc_nil : escaped [] []
| esc_byte h l a b bs x : hex_val a = Some h -> hex_val b = Some l -> escaped bs x -> escaped (16 * h + l :: bs) (37 :: a :: b :: x).
Inductive encodes : list N -> list N -> Prop :=
| enc_nil : encodes [] []
| enc_plain c e s : c <> 37 -> encodes e s -> encodes (c :: e) (c :: s)
| enc_pct c x e s : is_scalar c = true -> escaped (utf8_char c) x -> encodes e s -> encodes (x ++ e) (c :: s).

Lemma udf_plain pend c r : c <> 37 -> url_decode_from pend (c :: r) = bind (utf8_decode pend) (fun d => option_map (fun t => d ++ c :: t) (url_decode_from [] r)).
Proof. intros H. destruct c as [|p]; [reflexivity|]. do 6 (destruct p as [p|p|]; try reflexivity). contradiction. Qed.
Lemma hex2 a b h l : hex_val a = Some h -> hex_val b = Some l -> parse_hex 256 [a; b] = Some (16 * h + l).
Proof.
  intros Ha Hb. unfold parse_hex. destruct (N.eqb_spec a 43) as [->|]; [vm_compute in Ha; discriminate|]. cbn [hex_digits]. rewrite Ha, Hb. pose proof (hex_val_bound _ _ Ha). pose proof (hex_val_bound _ _ Hb).
  cbv zeta. rewrite (proj2 (N.ltb_lt (0 * 16 + h) 256)), (proj2 (N.ltb_lt ((0 * 16 + h) * 16 + l) 256)) by lia. f_equal. lia.
Qed.
Lemma udf_escaped bs x : escaped bs x -> forall pend e, url_decode_from pend (x ++ e) = url_decode_from (pend ++ bs) e.
Proof.
  induction 1 as [|h l a b bs x Ha Hb H IH]; intros pend e; [rewrite app_nil_r; reflexivity|].
  change (url_decode_from pend ((37 :: a :: b :: x) ++ e)) with (bind (parse_hex 256 [a; b]) (fun y => url_decode_from (pend ++ [y]) (x ++ e))).
  rewrite (hex2 _ _ _ _ Ha Hb). cbn [bind]. rewrite IH, <- app_assoc. reflexivity.
Qed.
Lemma udf_encodes e s : encodes e s -> forall p, wf_str p = true -> url_decode_from (utf8 p) e = Some (p ++ s).
Proof.
  induction 1 as [|c e s Hc H IH|c x e s Hc Hx H IH]; intros p Hp.
  - cbn [url_decode_from]. rewrite utf8_roundtrip, app_nil_r by exact Hp. reflexivity.
  - rewrite udf_plain by exact Hc. rewrite utf8_roundtrip by exact Hp. cbn [bind]. change (@nil byte) with (utf8 []). rewrite IH by reflexivity. reflexivity.
  - rewrite (udf_escaped _ _ Hx). replace (utf8 p ++ utf8_char c) with (utf8 (p ++ [c])) by (rewrite utf8_app; cbn; rewrite app_nil_r; reflexivity).
    rewrite IH, <- app_assoc; [reflexivity|]. unfold wf_str in *. rewrite forallb_app. apply andb_true_iff. split; [exact Hp|]. cbn [forallb]. rewrite Hc. reflexivity.
Qed.
Theorem C65_url_decode : forall e s, encodes e s -> url_decode e = Some s.
Proof. intros e s H. exact (udf_encodes e s H [] eq_refl). Qed.
Print Assumptions C65_url_decode.
(** A string without percent signs is left alone; a percent sign without two hexadecimal
    digits after it, or escapes that are not UTF-8, make the decoding fail. *)
Theorem C65_url_decode_rejects : forall a b,
  ~ In 37 a ->
  url_decode a = Some a /\
  ((forall x y r, b = x :: y :: r -> x <> 43 /\ (hex_val x = None \/ hex_val y = None)) -> url_decode (a ++ 37 :: b) = None) /\
  (forall x bs, escaped bs x -> utf8_decode bs = None -> (b = [] \/ exists c r, b = c :: r /\ c <> 37) -> url_decode (a ++ x ++ b) = None).
Proof.
  assert (S : forall a b, ~ In 37 a -> url_decode_from [] (a ++ b) = option_map (app a) (url_decode_from [] b)).
  { induction a as [|c a IH]; intros b H; cbn [app]; [destruct (url_decode_from [] b); reflexivity|]. rewrite udf_plain by (intros ->; apply H; left; reflexivity). cbn [utf8_decode bind app].
    rewrite IH by (intros X; apply H; right; exact X). destruct (url_decode_from [] b); reflexivity. }
  intros a b H. unfold url_decode. split; [|split].
  - rewrite <- (app_nil_r a) at 1. rewrite S by exact H. cbn. rewrite app_nil_r. reflexivity.
  - intros Hb. rewrite S by exact H. destruct b as [|x [|y r]]; try reflexivity. destruct (Hb x y r eq_refl) as [H1 H2].
    change (option_map (app a) (bind (parse_hex 256 [x; y]) (fun z => url_decode_from ([] ++ [z]) r)) = None).
    assert (parse_hex 256 [x; y] = None) as ->; [|reflexivity]. unfold parse_hex. destruct (N.eqb_spec x 43); [contradiction|]. cbn [hex_digits]. destruct H2 as [->| E]; [reflexivity|].
    destruct (hex_val x); [|reflexivity]. destruct (_ <? 256); [|reflexivity]. rewrite E. reflexivity.
  - intros x bs Hx Hu Hb. rewrite S by exact H. rewrite (udf_escaped _ _ Hx). cbn [app].
    assert (url_decode_from bs b = None) as ->; [|reflexivity].
    destruct Hb as [->|(c & r & -> & Hc)]; [exact Hu|]. rewrite udf_plain, Hu by exact Hc. reflexivity.
Qed.
Print Assumptions C65_url_decode_rejects.
(** A plus sign passes for the first digit of an escape. *)
Theorem C121_url_decode_plus_refuted : url_decode (of_string "a%+5") = Some [97; 5].
Proof. reflexivity. Qed.
Print Assumptions C121_url_decode_plus_refuted.

(** Reading back a header string: pairs of keys and encoded values, separated by commas and
    any white space. *)
Definition no_edge_ws (s : list N) : Prop := trim s = s.
Definition padded (s t : list N) : Prop := exists a b, t = a ++ s ++ b /\ forallb is_ws a = true /\ forallb is_ws b = true.
Lemma drop_ws a s : forallb is_ws a = true -> drop_while is_ws (a ++ s) = drop_while is_ws s.
Proof. induction a as [|c a IH]; intros H; [reflexivity|]. cbn in *. apply andb_true_iff in H. destruct H as [-> H]. apply IH, H. Qed.
Lemma drop_all_ws a : forallb is_ws a = true -> drop_while is_ws a = [].
Proof. intros H. rewrite <- (app_nil_r a), drop_ws by exact H. reflexivity. Qed.
Lemma forallb_rev {A} (f : A -> bool) l : forallb f (rev l) = forallb f l.
Proof. induction l as [|a l IH]; [reflexivity|]. cbn. rewrite forallb_app, IH. cbn. rewrite andb_true_r, andb_comm. reflexivity. Qed.
Lemma trim_padded s t : padded s t -> trim t = trim s.
Proof.
  intros (a & b & -> & Ha & Hb). unfold trim, trim_start. rewrite drop_ws by exact Ha.
  destruct (drop_while_suffix is_ws s) as (w & Es & Hw). destruct (drop_while is_ws s) as [|c r] eqn:E.
  - rewrite app_nil_r in Es. subst w. unfold trim_end. rewrite drop_ws by exact Hw. rewrite (drop_all_ws b Hb). reflexivity.
  - rewrite Es, <- app_assoc, drop_ws by exact Hw. pose proof (drop_while_head is_ws s) as Hh. rewrite E in Hh. rewrite (drop_while_id is_ws ((c :: r) ++ b)) by exact Hh.
    unfold trim_end. rewrite rev_app_distr, drop_ws; [reflexivity|]. rewrite forallb_rev. exact Hb.
Qed.
Definition header_text (k v : list N) (t : list N) : Prop :=
  exists e t1 t2, padded k t1 /\ padded e t2 /\ t = t1 ++ 61 :: t2 /\ encodes e v /\ no_edge_ws e /\ ~ In 44 t.
Definition good_key (k : list N) : Prop := k <> [] /\ no_edge_ws k /\ ~ In 61 k.
Lemma ws_not_eq a : forallb is_ws a = true -> ~ In 61 a.
Proof. rewrite forallb_forall. intros H X. specialize (H _ X). vm_compute in H. discriminate. Qed.
Lemma trim_eq_split t1 t2 : ~ In 61 t1 -> exists t1' t2', trim (t1 ++ 61 :: t2) = t1' ++ 61 :: t2' /\ padded t1' t1 /\ padded t2' t2 /\ trim t2' = trim t2 /\ trim t1' = trim t1 /\ ~ In 61 t1'.
Proof.
  intros H. destruct (drop_while_suffix is_ws t1) as (w & Ew & Hw). set (t1' := drop_while is_ws t1) in *.
  assert (D : drop_while is_ws (t1 ++ 61 :: t2) = t1' ++ 61 :: t2).
  { rewrite Ew, <- app_assoc, drop_ws by exact Hw. apply drop_while_id. pose proof (drop_while_head is_ws t1) as X. fold t1' in X. destruct t1'; [reflexivity|exact X]. }
  destruct (drop_while_suffix is_ws (rev t2)) as (z & Ez & Hz). set (q := drop_while is_ws (rev t2)) in *.
  assert (E2 : t2 = rev q ++ rev z) by (rewrite <- (rev_involutive t2), Ez, rev_app_distr; reflexivity).
  exists t1', (rev q).
  assert (P1 : padded t1' t1) by (exists w, []; rewrite app_nil_r; auto).
  assert (P2 : padded (rev q) t2) by (exists [], (rev z); rewrite forallb_rev; auto).
  split; [|split; [exact P1|split; [exact P2|split; [symmetry; apply trim_padded, P2|split; [symmetry; apply trim_padded, P1|]]]]].
  - unfold trim, trim_start. rewrite D. unfold trim_end. rewrite E2, app_comm_cons, app_assoc, rev_app_distr, rev_involutive, drop_ws by exact Hz.
    rewrite rev_app_distr. cbn [rev]. rewrite rev_involutive, <- app_assoc. rewrite drop_while_id.
    + rewrite !rev_app_distr, rev_involutive. cbn. rewrite <- app_assoc. reflexivity.
    + pose proof (drop_while_head is_ws (rev t2)) as X. fold q in X. destruct q; [reflexivity|exact X].
  - intros X. apply H. rewrite Ew. apply in_app_iff. right. exact X.
Qed.
Lemma parse_header_text k v t : good_key k -> v <> [] -> header_text k v t -> parse_header (trim t) = Some (k, v).
Proof.
  intros (K1 & K2 & K3) Hv (e & t1 & t2 & P1 & P2 & -> & He & We & _).
  assert (N1 : ~ In 61 t1) by (destruct P1 as (a & b & -> & Ha & Hb); rewrite !in_app_iff; intros [X|[X|X]]; [exact (ws_not_eq _ Ha X)|contradiction|exact (ws_not_eq _ Hb X)]).
  destruct (trim_eq_split t1 t2 N1) as (t1' & t2' & -> & _ & _ & T2 & T1 & N2). unfold parse_header. rewrite split_once_app by exact N2. rewrite T1, T2, (trim_padded _ _ P1), (trim_padded _ _ P2), K2, We.
  unfold decode_or. rewrite (C65_url_decode _ _ He). destruct k; [contradiction|]. destruct v; [contradiction|]. reflexivity.
Qed.
Theorem C65_header_string : forall l texts, Forall2 (fun kv t => good_key (fst kv) /\ snd kv <> [] /\ header_text (fst kv) (snd kv) t) l texts ->
  parse_headers (join [44] texts) = l /\ (texts <> [] -> parse_headers (join [44] texts ++ [44]) = l).
Proof.
  intros l texts H.
  assert (L : Forall (lacks 44) texts) by (clear -H; induction H as [|kv t l texts (_ & _ & (e & t1 & t2 & _ & _ & _ & _ & _ & N)) H IH]; constructor; auto).
  assert (F : filter_some (fun p => parse_header (trim p)) texts = l).
  { clear L. induction H as [|[k v] t l texts (H1 & H2 & H3) H IH]; [reflexivity|]. cbn [filter_some]. cbn in H1, H2, H3. rewrite (parse_header_text _ _ _ H1 H2 H3), IH. reflexivity. }
  destruct texts as [|t ts]; [inversion H; subst; split; [reflexivity|contradiction]|].
  assert (Ln : last (t :: ts) [0] <> []).
  { clear F. assert (G : Forall (fun t => t <> []) (t :: ts)).
    { clear -H. induction H as [|kv t' l texts (_ & _ & (e & t1 & t2 & _ & _ & -> & _)) H IH]; constructor; [destruct t1; discriminate|exact IH]. }
    rewrite List.Forall_forall in G. apply G. destruct (@exists_last _ (t :: ts)) as (r & x & ->); [discriminate|]. rewrite last_last. apply in_app_iff. right. left. reflexivity. }
  assert (Sp : split 44 (join [44] (t :: ts)) = t :: ts) by (apply split_join; [discriminate|exact L]).
  split.
  - unfold parse_headers. rewrite split_terminator_id; rewrite Sp; [exact F|exact Ln].
  - intros _. unfold parse_headers, split_terminator. rewrite <- (join_snoc_nil [44]) by discriminate. rewrite split_join; [rewrite dle_snoc; exact F|destruct ts; discriminate|]. apply Forall_app. split; [exact L|]. repeat constructor. intros [].
Qed.
Print Assumptions C65_header_string.

(** Members are read independently of each other, whatever they are. *)
Lemma filter_some_app A B (f : A -> option B) : forall l m, filter_some f (l ++ m) = filter_some f l ++ filter_some f m.
Proof. induction l as [|a l IH]; intros m; cbn [app filter_some]; [reflexivity|]. rewrite IH. destruct (f a); reflexivity. Qed.
Lemma split_at c : forall a b, split c (a ++ c :: b) = split c a ++ split c b.
Proof.
  induction a as [|x a IH]; intros b; cbn [app split].
  - rewrite N.eqb_refl. reflexivity.
  - destruct (x =? c); [cbn [app]; rewrite IH; reflexivity|]. rewrite IH. pose proof (split_nonempty c a) as Hn. destruct (split c a) as [|p q]; [contradiction|]. reflexivity.
Qed.
Lemma drop_last_headers : forall l, filter_some (fun p => parse_header (trim p)) (drop_last_empty l) = filter_some (fun p => parse_header (trim p)) l.
Proof.
  induction l as [|p l IH]; [reflexivity|]. destruct l as [|q l]; [destruct p; reflexivity|].
  assert (E : drop_last_empty (p :: q :: l) = p :: drop_last_empty (q :: l)) by (destruct p; reflexivity). rewrite E. clear E. cbn [filter_some] in IH |- *. rewrite IH. reflexivity.
Qed.
Lemma parse_headers_split s : parse_headers s = filter_some (fun p => parse_header (trim p)) (split 44 s).
Proof. apply drop_last_headers. Qed.
Theorem C65_header_members : forall a b, parse_headers (a ++ 44 :: b) = parse_headers a ++ parse_headers b.
Proof. intros a b. rewrite !parse_headers_split, split_at. apply filter_some_app. Qed.
Print Assumptions C65_header_members.
(** No member has an empty name or value; one that has no equals sign, nothing but white
    space before it, or nothing but white space after it, is ignored. *)
Theorem C65_bad_headers_ignored :
  (forall s k v, In (k, v) (parse_headers s) -> k <> [] /\ v <> []) /\
  (forall s, ~ In 44 s -> ~ In 61 s -> parse_headers s = []) /\
  (forall a s, ~ In 44 (a ++ s) -> forallb is_ws a = true -> parse_headers (a ++ 61 :: s) = []) /\
  (forall s b, ~ In 44 (s ++ b) -> ~ In 61 s -> forallb is_ws b = true -> parse_headers (s ++ 61 :: b) = []).
Proof.
  assert (One : forall s, ~ In 44 s -> parse_headers s = match parse_header (trim s) with Some h => [h] | None => [] end).
  { intros s H. rewrite parse_headers_split. change s with (join [44] [s]) at 1. rewrite split_join; [reflexivity|discriminate|]. constructor; [exact H|constructor]. }
  assert (In61 : forall s, In 61 (trim s) -> In 61 s).
  { intros s. unfold trim, trim_start, trim_end. rewrite <- in_rev. intros H.
    destruct (drop_while_suffix is_ws (rev (drop_while is_ws s))) as (w & E & _). assert (H1 : In 61 (rev (drop_while is_ws s))) by (rewrite E; apply in_app_iff; right; exact H).
    apply in_rev in H1. destruct (drop_while_suffix is_ws s) as (w' & E' & _). rewrite E'. apply in_app_iff. right. exact H1. }
  assert (Blank : forall a, forallb is_ws a = true -> trim a = []).
  { intros a H. unfold trim, trim_start. rewrite <- (app_nil_r a), drop_ws by exact H. reflexivity. }
  assert (Nin : forall a s, ~ In 44 (a ++ s) -> ~ In 44 (a ++ 61 :: s)).
  { intros a s H X. apply H. rewrite in_app_iff in X |- *. destruct X as [X|[X|X]]; [left; exact X|discriminate X|right; exact X]. }
  split; [|split; [|split]].
  - intros s k v. unfold parse_headers. induction (split_terminator 44 s) as [|p l IH]; cbn [filter_some]; [intros []|].
    destruct (parse_header (trim p)) as [[k' v']|] eqn:E; [|exact IH]. intros [X|X]; [|exact (IH X)]. injection X as -> ->. unfold parse_header in E.
    destruct (split_once 61 (trim p)) as [[k0 v0]|]; [|discriminate]. destruct (trim k0); [discriminate|]. destruct (decode_or (trim v0) v0); [discriminate|]. injection E as <- <-. split; discriminate.
  - intros s H1 H2. rewrite One by exact H1. unfold parse_header. rewrite split_once_lacks; [reflexivity|]. intros X. apply H2, In61, X.
  - intros a s H1 H2. rewrite One by (apply Nin, H1). destruct (trim_eq_split a s (ws_not_eq _ H2)) as (a' & s' & -> & _ & _ & _ & Ha & N). unfold parse_header. rewrite split_once_app by exact N.
    rewrite Ha, (Blank a H2). reflexivity.
  - intros s b H1 H2 H3. rewrite One by (apply Nin, H1). destruct (trim_eq_split s b H2) as (s' & b' & -> & _ & (x & y & Eb & Hx & Hy) & Hb & _ & N). unfold parse_header. rewrite split_once_app by exact N.
    rewrite Hb, (Blank b H3). cbn [decode_or url_decode url_decode_from utf8_decode]. destruct (trim s'); reflexivity.
Qed.
Print Assumptions C65_bad_headers_ignored.

(** *** The header map *)
Section maps.
Context {V : Type}.
Lemma get_put k k' (v : V) m : get k (put k' v m) = if str_eqb k k' then Some v else get k m.
Proof.
  induction m as [|[q w] m IH]; cbn [put get]; [reflexivity|]. destruct (str_eqb_spec k' q) as [->|Hq]; cbn [get].
  - destruct (str_eqb k q); reflexivity.
  - destruct (str_eqb_spec k q) as [->|]; [destruct (str_eqb_spec q k'); [congruence|reflexivity]|exact IH].
Qed.
Fixpoint last_value (k : list N) (l : list (list N * V)) : option V :=
  match l with [] => None | (q, v) :: l => match last_value k l with Some w => Some w | None => if str_eqb k q then Some v else None end end.
Lemma get_extend : forall l (m : list (str * V)) k, get k (extend m l) = match last_value k l with Some v => Some v | None => get k m end.
Proof.
  induction l as [|[q v] l IH]; intros m k; [reflexivity|]. unfold extend. cbn [fold_left fst snd]. change (get k (extend (put q v m) l) = match last_value k ((q, v) :: l) with Some v => Some v | None => get k m end).
  rewrite IH, get_put. cbn [last_value]. destruct (last_value k l); [reflexivity|]. destruct (str_eqb k q); reflexivity.
Qed.
Lemma last_value_spec : forall l k v, last_value k l = Some v <-> exists a b, l = a ++ (k, v) :: b /\ forall w, ~ In (k, w) b.
Proof.
  induction l as [|[q w] l IH]; intros k v; cbn [last_value].
  - split; [discriminate|]. intros ([|] & b & E & _); discriminate.
  - destruct (last_value k l) as [u|] eqn:E.
    + split.
      * intros X. injection X as ->. apply (proj1 (IH k v)) in E. destruct E as (a & b & -> & H). exists ((q, w) :: a), b. auto.
      * intros (a & b & E' & H). destruct a as [|x a]; cbn in E'; injection E' as E1 E2.
        -- exfalso. subst l. apply (proj1 (IH k u)) in E. destruct E as (a & b' & -> & _). eapply (H u). apply in_app_iff. right. left. reflexivity.
        -- rewrite <- E. apply IH. exists a, b. auto.
    + assert (Nl : forall u, ~ In (k, u) l).
      { intros u X. clear -X E. induction l as [|[q' w'] l IHl]; [destruct X|]. cbn in E. destruct (last_value k l) eqn:E'; [discriminate|]. destruct X as [X|X]; [|exact (IHl eq_refl X)]. injection X as -> ->. rewrite str_eqb_refl in E. discriminate. }
      destruct (str_eqb_spec k q) as [->|Hk].
      * split; [intros X; injection X as <-; exists [], l; auto|]. intros (a & b & E' & H). destruct a as [|x a]; cbn in E'; injection E' as E1 E2; [congruence|]. exfalso. subst l. apply (Nl v). apply in_app_iff. right. left. reflexivity.
      * split; [discriminate|]. intros (a & b & E' & H). destruct a as [|x a]; cbn in E'; injection E' as E1 E2; [congruence|]. exfalso. subst l. apply (Nl v). apply in_app_iff. right. left. reflexivity.
Qed.
End maps.

(** with_headers: a given value replaces the one there was; a percent-encoded value is
    decoded, one that does not decode is taken as it is. *)
Theorem C65_given_headers : forall (m given : list (str * str)) k,
  (forall e, last_value k given = Some e ->
    (forall v, encodes e v -> get k (with_headers m given) = Some v) /\
    (url_decode e = None -> get k (with_headers m given) = Some e)) /\
  (last_value k given = None -> get k (with_headers m given) = get k m).
Proof.
  intros m given k. unfold with_headers. rewrite get_extend.
  assert (L : last_value k (map (fun e : str * str => (fst e, decode_or (snd e) (snd e))) given) = option_map (fun e => decode_or e e) (last_value k given)).
  { induction given as [|[q w] given IH]; [reflexivity|]. cbn [map last_value fst snd]. rewrite IH. destruct (last_value k given); [reflexivity|]. destruct (str_eqb k q); reflexivity. }
  unfold str in L |- *. rewrite L. split.
  - intros e ->. cbn [option_map]. unfold decode_or. split; [intros v H; rewrite (C65_url_decode _ _ H); reflexivity|intros ->; reflexivity].
  - intros ->. reflexivity.
Qed.
Print Assumptions C65_given_headers.

(** The headers whose name and value are both valid, in order. *)
Definition valid_headers (hname hvalue : str -> option str) (l : list (str * str)) : list (str * str) :=
  flat_map (fun '(name, value) => match hname name with
    | None => []
    | Some name => match hvalue value with None => [] | Some value => [(name, value)] end
    end) l.
Lemma valid_headers_eq hname hvalue l : filter_some (header_of hname hvalue) l = valid_headers hname hvalue l.
Proof. induction l as [|[k v] l IH]; [reflexivity|]. cbn. unfold header_of at 1. cbn [fst snd]. rewrite IH. destruct (hname k); [destruct (hvalue v)|]; reflexivity. Qed.
(** The value of a header: the last valid one the environment gives under that name, where
    a signal's variable, when set at all, replaces the general one; else the last valid
    configured one. *)
Theorem C65_http_headers : forall hname hvalue env sg config k,
  let specific := env (sig_var sg "HEADERS") in let general := env (of_string "OTEL_EXPORTER_OTLP_HEADERS") in
  let from_env := match specific, general with Some s, _ => parse_headers s | None, Some s => parse_headers s | None, None => [] end in
  get k (http_headers hname hvalue env sg config) =
    match last_value k (valid_headers hname hvalue from_env) with
    | Some v => Some v
    | None => last_value k (valid_headers hname hvalue config)
    end.
Proof.
  intros hname hvalue env sg config k specific general from_env. rewrite <- !valid_headers_eq. unfold http_headers, V_HEADERS. fold specific. fold general. unfold from_env.
  assert (B : forall l : list (str * str), get k (extend [] l) = last_value k l) by (intros l; rewrite get_extend; destruct (last_value k l); reflexivity).
  destruct specific as [s|]; [|destruct general as [s|]]; rewrite ?get_extend, ?B; cbn [filter_some]; try change (last_value k (@nil (str * str))) with (@None str); try reflexivity; repeat match goal with |- context [last_value k ?l] => destruct (last_value k l) end; reflexivity.
Qed.
Print Assumptions C65_http_headers.

(** So the environment wins over a programmatic header of the same name. *)
Definition ascii_lower (s : str) : option str := Some (to_lower s).
Theorem C121_headers_precedence_refuted : exists env config k v, In (k, v) config /\ get k (http_headers ascii_lower Some env Traces config) <> Some v.
Proof.
  exists (fun n => if str_eqb n (of_string "OTEL_EXPORTER_OTLP_HEADERS") then Some (of_string "x-key=env") else None), [(of_string "x-key", of_string "code")], (of_string "x-key"), (of_string "code").
  split; [left; reflexivity|]. vm_compute. discriminate.
Qed.
Print Assumptions C121_headers_precedence_refuted.

(** gRPC: all valid values the environment gives under a name, in order, replace those
    of the configuration; the request carries them all. *)
Definition all_values (k : str) (l : list (str * str)) : list str := flat_map (fun e => if str_eqb k (fst e) then [snd e] else []) l.
Lemma get_put_any {V} k k' (v : V) m : get k (put k' v m) = if str_eqb k k' then Some v else get k m.
Proof.
  induction m as [|[q w] m IH]; cbn; [reflexivity|]. destruct (str_eqb k' q) eqn:E; cbn.
  - apply str_eqb_eq in E. subst q. destruct (str_eqb k k'); reflexivity.
  - rewrite IH. destruct (str_eqb k q) eqn:F; [|reflexivity]. apply str_eqb_eq in F. subst q. destruct (str_eqb k k') eqn:G; [|reflexivity].
    apply str_eqb_eq in G. subst k'. rewrite str_eqb_refl in E. discriminate.
Qed.
Lemma values_collect k l : forall m, values k (fold_left append l m) = values k m ++ all_values k l.
Proof.
  induction l as [|[q w] l IH]; intros m; cbn [fold_left all_values flat_map fst snd]; [symmetry; apply app_nil_r|].
  rewrite IH. unfold values at 1, append at 1. cbn [fst snd]. rewrite get_put_any. destruct (str_eqb k q) eqn:E.
  - apply str_eqb_eq in E. subst q. cbn [app]. rewrite <- app_assoc. reflexivity.
  - reflexivity.
Qed.
Lemma collect_nil l : collect l = [] -> l = [].
Proof.
  destruct l as [|[k v] l] using rev_ind; [reflexivity|]. unfold collect. rewrite fold_left_app. cbn [fold_left]. unfold append at 1. cbn [fst snd]. intros H.
  apply (f_equal (get k)) in H. rewrite get_put_any, str_eqb_refl in H. discriminate.
Qed.
Lemma collect_some l k vs : get k (collect l) = Some vs -> vs = all_values k l /\ vs <> [].
Proof.
  intros H. pose proof (values_collect k l []) as V. fold (collect l) in V. unfold values in V. rewrite H in V. cbn in V. split; [exact V|].
  revert vs H V. induction l as [|[q w] l IH] using rev_ind; [discriminate|]. intros vs H _ E. subst vs. unfold collect in H. rewrite fold_left_app in H. cbn [fold_left] in H.
  fold (collect l) in H. unfold append in H. cbn [fst snd] in H. rewrite get_put_any in H. destruct (str_eqb k q).
  - injection H as H. destruct (values q (collect l)); discriminate.
  - apply (IH [] H); [|reflexivity]. pose proof (values_collect k l []) as V. fold (collect l) in V. unfold values in V. rewrite H in V. exact V.
Qed.
Lemma put_keys {V} k (v : V) m k' : In k' (map fst (put k v m)) -> k' = k \/ In k' (map fst m).
Proof.
  induction m as [|[q w] m IH]; cbn; [intros [H|[]]; auto|]. destruct (str_eqb k q) eqn:E; cbn.
  - intros [H|H]; auto.
  - intros [H|H]; [auto|]. destruct (IH H); auto.
Qed.
Lemma put_nodup {V} k (v : V) m : NoDup (map fst m) -> NoDup (map fst (put k v m)).
Proof.
  induction m as [|[q w] m IH]; cbn; intros N; [repeat constructor; auto|]. inversion N as [|? ? Hn Hd]; subst. destruct (str_eqb k q) eqn:E; cbn.
  - apply str_eqb_eq in E. subst q. constructor; assumption.
  - constructor; [|apply IH, Hd]. intros H. destruct (put_keys _ _ _ _ H) as [->|H']; [rewrite str_eqb_refl in E; discriminate|contradiction].
Qed.
Lemma append_nodup l : forall m, NoDup (map fst m) -> NoDup (map fst (fold_left append l m)).
Proof. induction l as [|e l IH]; intros m N; [exact N|]. cbn. apply IH. unfold append. apply put_nodup, N. Qed.
Lemma get_last_nodup {V} k (l : list (str * V)) : NoDup (map fst l) -> last_value k l = get k l.
Proof.
  induction l as [|[q w] l IH]; intros N; [reflexivity|]. inversion N as [|? ? Hn Hd]; subst. cbn [last_value get fst snd]. rewrite (IH Hd).
  destruct (str_eqb k q) eqn:E; [|destruct (get k l); reflexivity]. apply str_eqb_eq in E. subst q.
  assert (G : get k l = None). { clear -Hn. induction l as [|[q w] l IH]; [reflexivity|]. cbn in *. destruct (str_eqb k q) eqn:E; [apply str_eqb_eq in E; subst; destruct Hn; auto|]. apply IH. auto. }
  rewrite G. reflexivity.
Qed.
Theorem C65_grpc_metadata : forall hname hvalue env sg config k,
  let specific := env (sig_var sg "HEADERS") in let general := env (of_string "OTEL_EXPORTER_OTLP_HEADERS") in
  let from_env := match specific, general with Some s, _ => parse_headers s | None, Some s => parse_headers s | None, None => [] end in
  values k (grpc_metadata hname hvalue env sg config) =
    match all_values k (valid_headers hname hvalue from_env) with
    | [] => values k config
    | vs => vs
    end.
Proof.
  intros hname hvalue env sg config k specific general from_env. rewrite <- valid_headers_eq. unfold grpc_metadata, V_HEADERS. fold specific. fold general.
  assert (E : match (match specific with Some s => Some s | None => general end) with Some s => filter_some (header_of hname hvalue) (parse_headers s) | None => [] end
              = filter_some (header_of hname hvalue) from_env) by (unfold from_env; destruct specific; [|destruct general]; reflexivity).
  rewrite E. clear E. set (l := filter_some (header_of hname hvalue) from_env). clearbody l.
  assert (G : values k (extend config (collect l)) = match all_values k l with [] => values k config | vs => vs end).
  { unfold values at 1. rewrite get_extend, get_last_nodup by (apply append_nodup; constructor). destruct (get k (collect l)) as [vs|] eqn:H.
    - destruct (collect_some _ _ _ H) as (-> & N). destruct (all_values k l); [congruence|reflexivity].
    - pose proof (values_collect k l []) as V. fold (collect l) in V. unfold values in V. rewrite H in V. cbn in V. rewrite <- V. reflexivity. }
  destruct (collect l) as [|e m] eqn:C; [|exact G]. rewrite (collect_nil _ C). reflexivity.
Qed.
Print Assumptions C65_grpc_metadata.
(** with_metadata replaces the values of the names it is given, and only those. *)
Theorem C65_with_metadata : forall m given k, NoDup (map fst given) ->
  values k (with_metadata m given) = match get k given with Some vs => vs | None => values k m end.
Proof. intros m given k N. unfold values, with_metadata. rewrite get_extend, get_last_nodup by exact N. destruct (get k given); reflexivity. Qed.
Print Assumptions C65_with_metadata.
(** Every value configured is sent, in order. *)
Theorem C65_request_metadata : forall m k, NoDup (map fst m) -> values k (request_metadata m) = values k m.
Proof.
  intros m k N. unfold request_metadata. rewrite values_collect. change (values k []) with (@nil str). cbn [app].
  induction m as [|[q vs] m IH]; [reflexivity|]. inversion N as [|? ? Hn Hd]; subst. cbn [flat_map fst snd]. unfold all_values in *. rewrite flat_map_app, (IH Hd).
  unfold values. cbn [get]. destruct (str_eqb k q) eqn:E.
  - apply str_eqb_eq in E. subst q.
    assert (G : get k m = None). { clear -Hn. induction m as [|[q w] m IH]; [reflexivity|]. cbn in *. destruct (str_eqb k q) eqn:E; [apply str_eqb_eq in E; subst; destruct Hn; auto|]. apply IH. auto. }
    rewrite G, app_nil_r. clear. induction vs as [|v vs IH]; [reflexivity|]. cbn. rewrite str_eqb_refl. cbn. f_equal. exact IH.
  - assert (Z : flat_map (fun e : str * str => if str_eqb k (fst e) then [snd e] else []) (map (fun v => (q, v)) vs) = []).
    { clear -E. induction vs as [|v vs IH]; [reflexivity|]. cbn. rewrite E. exact IH. }
    rewrite Z. reflexivity.
Qed.
Print Assumptions C65_request_metadata.
Example C65_grpc_nonvacuous :
  let env n := if str_eqb n (of_string "OTEL_EXPORTER_OTLP_HEADERS") then Some (of_string "A=1,b=2,a=3") else None in
  let m := request_metadata (grpc_metadata ascii_lower Some env Logs (with_metadata [(of_string "user-agent", [of_string "x"])] [(of_string "a", [of_string "0"]); (of_string "c", [of_string "4"; of_string "5"])])) in
  map (fun k => values (of_string k) m) ["a"; "b"; "c"; "user-agent"]%string = [[of_string "1"; of_string "3"]; [of_string "2"]; [of_string "4"; of_string "5"]; [of_string "x"]].
Proof. vm_compute. reflexivity. Qed.
Theorem C121_grpc_headers_precedence_refuted : exists env config k vs, get k config = Some vs /\ values k (grpc_metadata ascii_lower Some env Traces config) <> vs.
Proof.
  exists (fun n => if str_eqb n (of_string "OTEL_EXPORTER_OTLP_HEADERS") then Some (of_string "x-key=env") else None), [(of_string "x-key", [of_string "code"])], (of_string "x-key"), [of_string "code"].
  split; [reflexivity|]. vm_compute. discriminate.
Qed.
Print Assumptions C121_grpc_headers_precedence_refuted.
(** An HTTP request carries each configured header and, unless one of them has that name,
    the content type of the format its body is in. *)
Theorem C65_http_request : forall p headers k,
  get k (http_request p headers) =
    match last_value k headers with
    | Some v => Some v
    | None => if str_eqb k (of_string "content-type") then Some (of_string match p with HttpJson => "application/json" | HttpBinary => "application/x-protobuf" end) else None
    end.
Proof. intros p headers k. unfold http_request. rewrite get_extend. destruct (last_value k headers); [reflexivity|]. cbn [get]. destruct p; reflexivity. Qed.
Print Assumptions C65_http_request.
(** So a configured content-type makes a request lie about its body. *)
Theorem C121_content_type_refuted : exists headers, get (of_string "content-type") (http_request HttpBinary headers) = Some (of_string "application/json").
Proof. exists [(of_string "content-type", of_string "application/json")]. vm_compute. reflexivity. Qed.
Print Assumptions C121_content_type_refuted.
(** The default User-Agent is sent, in whatever order the map is iterated, unless a
    configured header or one of the environment has that name in some spelling. *)
Theorem C65_user_agent : forall env sg agent given config' (lower : str -> option str) hvalue,
  hvalue agent = Some agent -> lower (of_string "User-Agent") = Some (of_string "user-agent") ->
  (forall e, In e given -> lower (fst e) <> Some (of_string "user-agent")) ->
  env (sig_var sg "HEADERS") = None -> env (of_string "OTEL_EXPORTER_OTLP_HEADERS") = None ->
  Permutation config' (with_headers (default_headers agent) given) ->
  get (of_string "user-agent") (http_headers lower hvalue env sg config') = Some agent.
Proof.
  intros env sg agent given config' lower hvalue Hv Hl Hg E1 E2 Hp. rewrite C65_http_headers. rewrite E1, E2. cbn [valid_headers flat_map last_value].
  set (ua := of_string "user-agent") in *. set (UA := of_string "User-Agent") in *.
  assert (Hput : forall l (m : list (str * str)) e, In e (extend m l) -> In e m \/ In e l).
  { clear. induction l as [|[k v] l IH]; intros m e H; [left; exact H|]. unfold extend in H. cbn [fold_left fst snd] in H. destruct (IH _ _ H) as [H'|H']; [|right; right; exact H'].
    clear -H'. induction m as [|[k0 v0] m IHm]; cbn in H'; [destruct H' as [H'|[]]; right; left; exact H'|].
    destruct (str_eqb k k0); destruct H' as [H'|H']; [right; left; exact H'|left; right; exact H'|left; left; exact H'|].
    destruct (IHm H') as [X|X]; [left; right; exact X|right; exact X]. }
  assert (Hall : forall e, In e config' -> e = (UA, agent) \/ lower (fst e) <> Some ua).
  { intros e He. apply (Permutation_in _ Hp) in He. destruct (Hput _ _ _ He) as [[<-|[]]|He']; [left; reflexivity|right].
    apply in_map_iff in He' as (e0 & <- & He0). cbn [fst]. apply Hg, He0. }
  assert (Hin : In (UA, agent) config').
  { apply (Permutation_in _ (Permutation_sym Hp)). unfold with_headers, default_headers. fold UA.
    assert (X : forall l (m : list (str * str)), (forall e, In e l -> fst e <> UA) -> In (UA, agent) m -> In (UA, agent) (extend m l)).
    { clear. induction l as [|[k v] l IH]; intros m Hne Hm; [exact Hm|]. unfold extend. cbn [fold_left fst snd]. apply IH; [intros e He; apply Hne; right; exact He|].
      pose proof (Hne (k, v) (or_introl eq_refl)) as Hk. cbn in Hk. clear -Hm Hk. induction m as [|[k0 v0] m IHm]; [destruct Hm|]. cbn [put].
      destruct (str_eqb k k0) eqn:E; destruct Hm as [Hm|Hm].
      - injection Hm as -> ->. apply str_eqb_eq in E. contradiction.
      - right; exact Hm.
      - left; exact Hm.
      - right; exact (IHm Hm). }
    apply X; [|left; reflexivity]. intros e He Ee. apply in_map_iff in He as (e0 & <- & He0). cbn [fst] in Ee. apply (Hg e0 He0). rewrite Ee. exact Hl. }
  clear - Hall Hin Hv Hl. induction config' as [|[k v] l IH]; [destruct Hin|]. cbn [valid_headers flat_map].
  assert (Hr : forall w, last_value ua (valid_headers lower hvalue l) = Some w -> w = agent).
  { intros w Hw. apply last_value_spec in Hw as (a & b & E & _). assert (In (ua, w) (valid_headers lower hvalue l)) as Hi by (rewrite E; apply in_or_app; right; left; reflexivity).
    unfold valid_headers in Hi. apply in_flat_map in Hi as ([k' v'] & Hi1 & Hi2). destruct (Hall (k', v') (or_intror Hi1)) as [Hk|Hk].
    - injection Hk as -> ->. rewrite Hl, Hv in Hi2. destruct Hi2 as [Hi2|[]]. symmetry. exact (f_equal snd Hi2).
    - cbn in Hk. destruct (lower k') as [k''|]; [|destruct Hi2]. destruct (hvalue v') as [v''|]; [|destruct Hi2]. destruct Hi2 as [Hi2|[]]. exfalso. apply Hk. f_equal. exact (f_equal fst Hi2). }
  fold (valid_headers lower hvalue l). destruct Hin as [Hin|Hin].
  - injection Hin as -> ->. rewrite Hl, Hv. cbn [app last_value]. destruct (last_value ua (valid_headers lower hvalue l)) as [w|] eqn:E; [rewrite (Hr w eq_refl); reflexivity|].
    rewrite str_eqb_refl. reflexivity.
  - specialize (IH (fun e He => Hall e (or_intror He)) Hin). destruct (lower k) as [k''|]; [destruct (hvalue v)|]; cbn [app last_value]; rewrite IH; reflexivity.
Qed.
Print Assumptions C65_user_agent.
Example C65_user_agent_nonvacuous : get (of_string "user-agent") (http_headers ascii_lower Some (fun _ => None) Logs (with_headers (default_headers (of_string "U")) [(of_string "x", of_string "y")])) = Some (of_string "U").
Proof. reflexivity. Qed.

(** And a programmatic header replaces the default User-Agent only if it is spelt the same
    way: otherwise which of the two is sent depends on the iteration order of a HashMap. *)
Theorem C121_user_agent_refuted : exists given config', Permutation config' (with_headers (default_headers (of_string "OTel")) given) /\ In (of_string "user-agent", of_string "mine") given /\
  get (of_string "user-agent") (http_headers ascii_lower Some (fun _ => None) Traces config') = Some (of_string "OTel").
Proof.
  exists [(of_string "user-agent", of_string "mine")], [(of_string "user-agent", of_string "mine"); (of_string "User-Agent", of_string "OTel")].
  split; [|split; [left; reflexivity|reflexivity]]. replace (with_headers _ _) with [(of_string "User-Agent", of_string "OTel"); (of_string "user-agent", of_string "mine")] by reflexivity. apply perm_swap.
Qed.
Print Assumptions C121_user_agent_refuted.

(** ** C81: the exporters at work *)
(** Every export whose result is Ok was sent and accepted: for every exporter but the
    metric exporter over HTTP. *)
Definition accepted (tr : transport) (a : answer) : Prop := match tr, a with _, Unreachable => False | Http, Status c => 200 <= c <= 299 | Grpc, Status c => c = 0 end.
Lemma is_success_spec c : is_success c = true <-> 200 <= c <= 299.
Proof. unfold is_success. rewrite andb_true_iff, N.leb_le, N.ltb_lt. lia. Qed.
Theorem C81_ok_means_accepted : forall tr sg ops alive a r sent, In (Export a, r, sent) (exporter_run tr sg alive ops) ->
  (r <> EAlreadyShutdown -> sent = true \/ (tr = Grpc /\ sg = Metrics)) /\
  (sent = false -> r <> EOk) /\
  (~ (tr = Http /\ sg = Metrics) -> r = EOk <-> sent = true /\ accepted tr a).
Proof.
  intros tr sg ops. induction ops as [|o ops IH]; intros alive a r sent; cbn [exporter_run]; [intros []|].
  destruct (exporter_step tr sg alive o) as [[alive' r'] sent'] eqn:E. intros [X|X]; [|eapply IH, X]. injection X as -> -> ->. cbn [exporter_step] in E. unfold client_export in E.
  destruct alive; [|destruct tr, sg; injection E as <- <- <-; (split; [intros Z; tauto || (exfalso; apply Z; reflexivity)|split; [discriminate|intros _; split; [discriminate|intros [Z _]; discriminate]]])].
  injection E as <- <- <-. split; [auto|]. split; [discriminate|]. intros Hm. destruct a as [|c].
  - destruct tr, sg; (split; [discriminate|]); intros [_ []].
  - assert (H1 : forall b : bool, (if b then EOk else EFailure) = EOk <-> b = true) by (intros []; split; intros; congruence).
    destruct tr; [|rewrite H1; cbn [accepted]; rewrite N.eqb_eq; tauto].
    destruct sg; try (exfalso; apply Hm; auto; fail); rewrite H1, is_success_spec; cbn [accepted]; tauto.
Qed.
Print Assumptions C81_ok_means_accepted.
(** The metric exporter over HTTP reports success whatever status the client returns. *)
Theorem C128_metrics_status_refuted : exporter_run Http Metrics true [Export (Status 500)] = [(Export (Status 500), EOk, true)].
Proof. reflexivity. Qed.
Print Assumptions C128_metrics_status_refuted.

(** After a shutdown nothing is sent and every export fails: for metrics over both
    transports and logs over HTTP. *)
Theorem C81_nothing_after_shutdown : forall tr sg before after, sg = Metrics \/ (tr = Http /\ sg = Logs) ->
  exists l r, exporter_run tr sg true (before ++ Shutdown :: after) = l ++ (Shutdown, r, false) :: exporter_run tr sg false after /\
    map (fun x => fst (fst x)) l = before /\
    Forall (fun x => snd x = false /\ forall a, fst (fst x) = Export a -> snd (fst x) <> EOk) (exporter_run tr sg false after).
Proof.
  intros tr sg before after Hs.
  assert (D : forall ops, Forall (fun x => snd x = false /\ forall a, fst (fst x) = Export a -> snd (fst x) <> EOk) (exporter_run tr sg false ops)).
  { induction ops as [|o ops IH]; [constructor|]. cbn [exporter_run]. destruct (exporter_step tr sg false o) as [[al r] se] eqn:E.
    assert (al = false /\ se = false /\ forall a, o = Export a -> r <> EOk) as (-> & -> & H).
    { destruct Hs as [->|[-> ->]]; destruct o as [a|]; try destruct tr; cbn in E; injection E as <- <- <-; (split; [reflexivity|split; [reflexivity|intros a' X; discriminate]]). }
    constructor; [split; [reflexivity|exact H]|exact IH]. }
  assert (K : forall ops al, exists l r, exporter_run tr sg al (ops ++ Shutdown :: after) = l ++ (Shutdown, r, false) :: exporter_run tr sg false after /\ map (fun x => fst (fst x)) l = ops).
  { induction ops as [|o ops IH]; intros al.
    - exists []. cbn [app exporter_run]. destruct (exporter_step tr sg al Shutdown) as [[al' r] se] eqn:E. exists r. split; [|reflexivity].
      assert (al' = false /\ se = false) as [-> ->]; [|reflexivity]. destruct Hs as [->|[-> ->]]; try destruct tr; cbn in E; injection E as <- _ <-; auto.
    - cbn [app exporter_run]. destruct (exporter_step tr sg al o) as [[al' r'] se]. destruct (IH al') as (l & r & E & M). exists ((o, r', se) :: l), r. rewrite E. cbn. rewrite M. auto. }
  destruct (K before true) as (l & r & E & M). exists l, r. split; [exact E|]. split; [exact M|apply D].
Qed.
Print Assumptions C81_nothing_after_shutdown.
(** Spans (over both transports) and logs over gRPC are still sent after a shutdown that
    reported success. *)
Theorem C128_shutdown_refuted : forall tr sg, sg = Traces \/ (tr = Grpc /\ sg = Logs) ->
  forall code, accepted tr (Status code) -> exporter_run tr sg true [Shutdown; Export (Status code)] = [(Shutdown, EOk, false); (Export (Status code), EOk, true)].
Proof.
  intros tr sg H code Hc. destruct H as [->|[-> ->]]; [destruct tr|]; cbn in *; unfold is_success.
  - destruct (N.leb_spec 200 code), (N.ltb_spec code 300); try lia. reflexivity.
  - subst. reflexivity.
  - subst. reflexivity.
Qed.
Print Assumptions C128_shutdown_refuted.

Example C65_C81_nonvacuous :
  let env n := if str_eqb n (of_string "OTEL_EXPORTER_OTLP_ENDPOINT") then Some (of_string "http://c:1/") else if str_eqb n (of_string "OTEL_EXPORTER_OTLP_TIMEOUT") then Some (of_string "250")
    else if str_eqb n (of_string "OTEL_EXPORTER_OTLP_LOGS_HEADERS") then Some (of_string " api-key = k%20%C3%A9 , b=2,") else None in
  resolve_http_endpoint (fun s => Some s) env Traces None = Ok (of_string "http://c:1/v1/traces") /\
  resolve_timeout env Logs None = 250000000 /\
  http_headers ascii_lower Some env Logs (default_headers (of_string "U")) = [(of_string "user-agent", of_string "U"); (of_string "api-key", [107; 32; 233]); (of_string "b", of_string "2")] /\
  exporter_run Http Logs true [Export (Status 200); Shutdown; Export (Status 200)] = [(Export (Status 200), EOk, true); (Shutdown, EOk, false); (Export (Status 200), EAlreadyShutdown, false)].
Proof. vm_compute. repeat split. Qed.
