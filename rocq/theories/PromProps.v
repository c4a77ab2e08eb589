(** The Prometheus exporter (C63, C80). *)
From Coq Require Import String List NArith ZArith Bool Lia Permutation Sorted ZifyBool ZifyN.
From Verif Require Import Str StrProofs F64 AttrModel AttrProofs InstrModel InstrProps KvModel OtlpModel OtlpProps PromModel.
Import ListNotations.
Local Open Scope N_scope.

(** ** Specification *)
Definition digit (c : N) : Prop := 48 <= c <= 57.
(** [a-zA-Z_:][a-zA-Z0-9_:]* *)
Definition name_first (c : N) : Prop := letter c \/ c = 95 \/ c = 58.
Definition name_rest (c : N) : Prop := letter c \/ digit c \/ c = 95 \/ c = 58.
Definition metric_grammar (s : list N) : Prop := exists c r, s = c :: r /\ name_first c /\ Forall name_rest r.
(** [a-zA-Z_][a-zA-Z0-9_]* *)
Definition label_grammar (s : list N) : Prop := exists c r, s = c :: r /\ (letter c \/ c = 95) /\ Forall (fun c => letter c \/ digit c \/ c = 95) r.
Definition ascii (s : list N) : Prop := Forall (fun c => c < 128) s.
(** Unicode's alphanumeric characters agree with ASCII's on ASCII. *)
Definition alnum_ok (alnum : N -> bool) : Prop := forall c, c < 128 -> alnum c = true <-> letter c \/ digit c.
(** [b] is [a] with every character outside the grammar replaced by an underscore. *)
Definition cleaned (a b : list N) : Prop := Forall2 (fun x y => (name_rest x /\ y = x) \/ (~ name_rest x /\ y = 95)) a b.

(** ** Names *)
Lemma is_alnum_spec c : is_alnum c = true <-> letter c \/ digit c.
Proof. unfold is_alnum, is_alpha, is_upper, is_lower, is_digit, between, letter, digit. lia. Qed.
Lemma rep_name_spec c : (name_rest c /\ rep_name c = c) \/ (~ name_rest c /\ rep_name c = 95).
Proof.
  unfold rep_name, name_rest. pose proof (is_alnum_spec c) as H. destruct (is_alnum c) eqn:E; cbn [orb]; [left; tauto|].
  assert (~ (letter c \/ digit c)) by (intros X; apply (proj2 H) in X; discriminate).
  destruct (N.eqb_spec c 95); [left; subst; tauto|]. destruct (N.eqb_spec c 58); [left; subst; tauto|]. right. tauto.
Qed.
Lemma rep_cleaned : forall s, cleaned s (map rep_name s).
Proof. induction s; cbn; constructor; [apply rep_name_spec|assumption]. Qed.
Lemma cleaned_unique : forall a b b', cleaned a b -> cleaned a b' -> b = b'.
Proof.
  intros a b b' H. revert b'. induction H as [|x y a b [[H1 H2]|[H1 H2]] H IH]; intros b' H'; inversion H' as [|? y' ? b'' [[H3 H4]|[H3 H4]] H5]; subst; try contradiction; [reflexivity| |];
  f_equal; apply IH, H5.
Qed.
Lemma scan_cleaned alnum : alnum_ok alnum -> forall s, ascii s -> cleaned s (scan alnum s).
Proof.
  intros Ha. induction s as [|c s IH]; intros Hs; cbn [scan]; [constructor|]. inversion Hs; subst.
  destruct (stops alnum c) eqn:E; [apply rep_cleaned|]. constructor; [|apply IH; assumption]. left. split; [|reflexivity].
  unfold stops in E. unfold name_rest. destruct (alnum c) eqn:E1; [apply (proj1 (Ha c H1)) in E1; tauto|]. cbn in E. destruct (N.eqb_spec c 95); [tauto|]. destruct (N.eqb_spec c 58); [tauto|discriminate].
Qed.
Lemma sanitize_cleaned alnum : alnum_ok alnum -> forall s, ascii s -> exists b, cleaned s b /\
  sanitize_name alnum s = match s with c :: _ => if is_digit c then 95 :: b else b | [] => [] end.
Proof.
  intros Ha s Hs. destruct s as [|c s]; [exists []; split; [constructor|reflexivity]|]. unfold sanitize_name. destruct (is_digit c).
  - exists (map rep_name (c :: s)). split; [apply rep_cleaned|reflexivity].
  - exists (scan alnum (c :: s)). split; [apply scan_cleaned; assumption|reflexivity].
Qed.
Lemma cleaned_rest : forall a b, cleaned a b -> Forall name_rest b.
Proof. intros a b H. induction H as [|x y a b [[H1 H2]|[H1 H2]] H IH]; constructor; subst; try assumption. unfold name_rest. tauto. Qed.
Lemma is_digit_spec c : is_digit c = true <-> digit c.
Proof. unfold is_digit, between, digit. lia. Qed.
Lemma sanitize_valid alnum s : alnum_ok alnum -> ascii s -> s <> [] -> metric_grammar (sanitize_name alnum s).
Proof.
  intros Ha Hs Hn. destruct (sanitize_cleaned alnum Ha s Hs) as (b & Hb & ->). destruct s as [|c s]; [contradiction|].
  destruct (is_digit c) eqn:E.
  - exists 95, b. split; [reflexivity|]. split; [right; left; reflexivity|]. eapply cleaned_rest, Hb.
  - inversion Hb as [|? y ? b' Hy Hb']; subst. exists y, b'. split; [reflexivity|]. split; [|eapply cleaned_rest, Hb'].
    destruct Hy as [[H1 H2]|[H1 H2]]; subst; [|right; left; reflexivity]. unfold name_rest in H1. unfold name_first. destruct H1 as [H1|[H1|H1]]; [tauto| |tauto].
    apply (proj2 (is_digit_spec c)) in H1. congruence.
Qed.
Lemma grammar_app a b : metric_grammar a -> Forall name_rest b -> metric_grammar (a ++ b).
Proof. intros (c & r & -> & H1 & H2) H. exists c, (r ++ b). split; [reflexivity|]. split; [exact H1|]. apply Forall_app. auto. Qed.
Lemma grammar_rest a : metric_grammar a -> Forall name_rest a.
Proof. intros (c & r & -> & H1 & H2). constructor; [|exact H2]. unfold name_first, name_rest in *. tauto. Qed.

(** *** Units *)
Lemma assoc_in : forall t u v, assoc_str u t = Some v -> exists k w, In (k, w) t /\ u = of_string k /\ v = of_string w.
Proof.
  induction t as [|[k w] t IH]; intros u v; cbn [assoc_str]; [discriminate|]. destruct (str_eqb_spec u (of_string k)) as [->|].
  - intros E. injection E as <-. exists k, w. split; [left; reflexivity|auto].
  - intros E. destruct (IH _ _ E) as (k' & w' & H1 & H2). exists k', w'. split; [right; exact H1|exact H2].
Qed.
Definition plain_str (s : list N) : bool := forallb (fun c => is_lower c || (c =? 95)) s.
Lemma plain_rest s : plain_str s = true -> Forall name_rest s.
Proof.
  unfold plain_str. rewrite forallb_forall. intros H. apply List.Forall_forall. intros c Hc. specialize (H c Hc). unfold is_lower, between, name_rest, letter in *.
  cbv beta in H. lia.
Qed.
Lemma tables_plain : forallb (fun e => plain_str (of_string (snd e))) (prom_units ++ prom_per_units) = true.
Proof. vm_compute. reflexivity. Qed.
Lemma assoc_plain u v t : incl t (prom_units ++ prom_per_units) -> assoc_str u t = Some v -> Forall name_rest v.
Proof.
  intros Hi E. destruct (assoc_in _ _ _ E) as (k & w & H & _ & ->). apply plain_rest. pose proof tables_plain as T. rewrite forallb_forall in T. apply (T (k, w)), Hi, H.
Qed.
Lemma suffix_rest u s : unit_suffix u = Some s -> Forall name_rest s.
Proof.
  unfold unit_suffix. destruct u as [|c u]; [discriminate|]. set (v := c :: u).
  assert (I1 : incl prom_units (prom_units ++ prom_per_units)) by (intros x; rewrite in_app_iff; auto).
  assert (I2 : incl prom_per_units (prom_units ++ prom_per_units)) by (intros x; rewrite in_app_iff; auto).
  assert (P1 : Forall name_rest (of_string "per_")) by (apply plain_rest; reflexivity).
  assert (P2 : Forall name_rest (of_string "_per_")) by (apply plain_rest; reflexivity).
  revert P1 P2. generalize (of_string "per_") (of_string "_per_"). intros pe pe' P1 P2.
  destruct (assoc_str v prom_units) as [m|] eqn:E; [intros X; injection X as <-; exact (assoc_plain _ _ _ I1 E)|].
  destruct (split_once 47 v) as [[a b]|]; [|discriminate].
  destruct (existsb _ _), (assoc_str a prom_units) as [f|] eqn:E1, (assoc_str b prom_per_units) as [p|] eqn:E2; try discriminate; intros X; injection X as <-;
    repeat (apply Forall_app; split); auto; try exact (assoc_plain _ _ _ I1 E1); exact (assoc_plain _ _ _ I2 E2).
Qed.
Lemma assoc_nodup : forall t u k w, NoDup (map fst t) -> In (k, w) t -> u = of_string k -> (forall k k', of_string k = of_string k' -> k = k') -> assoc_str u t = Some (of_string w).
Proof.
  induction t as [|[k' w'] t IH]; intros u k w Hn Hi Hu Hinj; [destruct Hi|]. cbn in Hn. inversion Hn as [|? ? N1 N2]; subst. cbn [assoc_str].
  destruct (str_eqb_spec (of_string k) (of_string k')) as [E|E].
  - apply Hinj in E. subst. destruct Hi as [Hi|Hi]; [injection Hi as <-; reflexivity|]. exfalso. apply N1. apply in_map_iff. exists (k', w). auto.
  - destruct Hi as [Hi|Hi]; [injection Hi as -> ->; contradiction|]. apply IH with k; auto.
Qed.

(** *** The whole name *)
Definition opt_app (o : option (list N)) : list N := match o with Some s => s | None => [] end.
Definition us (o : option (list N)) : list N := match o with Some s => 95 :: s | None => [] end.
Lemma get_name_shape alnum c m : get_name alnum c m = opt_app (namespace c) ++ sanitize_name alnum (me_name m) ++ us (if without_units c then None else unit_suffix (me_unit m)).
Proof. unfold get_name, opt_app, us. destruct (namespace c), (without_units c), (unit_suffix (me_unit m)); cbn; rewrite ?app_nil_r; reflexivity. Qed.
Definition monotonic_sum (d : amdata) : Prop := match d with DF64 (MSum _ _ _ _ true) | DU64 (MSum _ _ _ _ true) | DI64 (MSum _ _ _ _ true) => True | _ => False end.
Definition exponential (d : amdata) : Prop := match d with DF64 (MExpo _ _ _ _) | DU64 (MExpo _ _ _ _) | DI64 (MExpo _ _ _ _) => True | _ => False end.
Definition histogram (d : amdata) : Prop := match d with DF64 (MHist _ _ _ _) | DU64 (MHist _ _ _ _) | DI64 (MHist _ _ _ _) => True | _ => False end.

(** An exported name is the namespace, the instrument's name with bad characters replaced
    (and an underscore in front of a leading digit), the unit's suffix unless switched
    off, and _total exactly for monotonic sums unless switched off; every metric but an
    exponential histogram has one, with the Prometheus type of its data. *)
Theorem C63_name_and_type : forall alnum c m, alnum_ok alnum -> ascii (me_name m) ->
  (exponential (me_data m) /\ type_and_name alnum c m = None) \/
  (~ exponential (me_data m) /\ exists t b total,
    type_and_name alnum c m = Some (t, opt_app (namespace c) ++ b ++ us (if without_units c then None else unit_suffix (me_unit m)) ++ total) /\
    (exists d, cleaned (me_name m) d /\ ((b = 95 :: d /\ exists x r, me_name m = x :: r /\ digit x) \/ (b = d /\ forall x r, me_name m = x :: r -> ~ digit x))) /\
    ((monotonic_sum (me_data m) /\ t = COUNTER /\ total = if without_counter_suffixes c then [] else of_string "_total") \/
     (~ monotonic_sum (me_data m) /\ total = [] /\ ((histogram (me_data m) /\ t = HISTOGRAM) \/ (~ histogram (me_data m) /\ t = GAUGE))))).
Proof.
  intros alnum c m Ha Hs. destruct (sanitize_cleaned alnum Ha _ Hs) as (d & Hd & Es).
  assert (Hb : (sanitize_name alnum (me_name m) = 95 :: d /\ exists x r, me_name m = x :: r /\ digit x) \/ (sanitize_name alnum (me_name m) = d /\ forall x r, me_name m = x :: r -> ~ digit x)).
  { rewrite Es. destruct (me_name m) as [|x r]; [right; split; [inversion Hd; reflexivity|intros; discriminate]|]. destruct (is_digit x) eqn:E.
    - left. split; [reflexivity|]. exists x, r. split; [reflexivity|]. apply is_digit_spec, E.
    - right. split; [reflexivity|]. intros x' r' E'. injection E' as <- <-. intros X. apply (proj2 (is_digit_spec x)) in X. congruence. }
  assert (K : forall t mono, amdata_type (me_data m) = Some (t, mono) -> exists total,
    type_and_name alnum c m = Some (t, opt_app (namespace c) ++ sanitize_name alnum (me_name m) ++ us (if without_units c then None else unit_suffix (me_unit m)) ++ total) /\
    total = if mono then (if without_counter_suffixes c then [] else of_string "_total") else []).
  { intros t mono E. exists (if mono && negb (without_counter_suffixes c) then of_string "_total" else []). split.
    - unfold type_and_name. rewrite E, get_name_shape. destruct (mono && negb (without_counter_suffixes c)); rewrite ?app_nil_r, <- ?app_assoc; reflexivity.
    - destruct mono, (without_counter_suffixes c); reflexivity. }
  assert (X : forall t mono, amdata_type (me_data m) = Some (t, mono) -> ~ exponential (me_data m) ->
    ((monotonic_sum (me_data m) /\ mono = true /\ t = COUNTER) \/ (~ monotonic_sum (me_data m) /\ mono = false /\ ((histogram (me_data m) /\ t = HISTOGRAM) \/ (~ histogram (me_data m) /\ t = GAUGE)))) ->
    (exponential (me_data m) /\ type_and_name alnum c m = None) \/ (~ exponential (me_data m) /\ exists t b total,
    type_and_name alnum c m = Some (t, opt_app (namespace c) ++ b ++ us (if without_units c then None else unit_suffix (me_unit m)) ++ total) /\
    (exists d, cleaned (me_name m) d /\ ((b = 95 :: d /\ exists x r, me_name m = x :: r /\ digit x) \/ (b = d /\ forall x r, me_name m = x :: r -> ~ digit x))) /\
    ((monotonic_sum (me_data m) /\ t = COUNTER /\ total = if without_counter_suffixes c then [] else of_string "_total") \/
     (~ monotonic_sum (me_data m) /\ total = [] /\ ((histogram (me_data m) /\ t = HISTOGRAM) \/ (~ histogram (me_data m) /\ t = GAUGE)))))).
  { intros t mono E Hx Hc. right. split; [exact Hx|]. destruct (K t mono E) as (total & K1 & K2). exists t, (sanitize_name alnum (me_name m)), total.
    split; [exact K1|]. split; [exists d; split; [exact Hd|exact Hb]|]. destruct Hc as [(H1 & -> & H2)|(H1 & -> & H2)]; [left|right]; auto. }
  unfold amdata_type in X. destruct (me_data m) as [dd|dd|dd] eqn:Em; destruct dd as [| ? ? ? ? [] | |]; cbn [data_type] in X;
    try (left; split; [exact I|]; unfold type_and_name; rewrite Em; reflexivity);
    eapply X; try reflexivity; cbn; tauto.
Qed.
Print Assumptions C63_name_and_type.

(** The suffix of a unit: a known unit's word; for a/b (a without a slash) with a known
    "per" unit b, the word per_b, after the word of a when a is known and is neither a time
    unit nor 1; nothing otherwise. *)
Lemma of_string_inj : forall a b, of_string a = of_string b -> a = b.
Proof.
  unfold of_string. intros a. induction a as [|x a IH]; intros [|y b]; cbn; try discriminate; auto. intros E. injection E as E1 E2. f_equal; [|apply IH, E2].
  rewrite <- (Ascii.ascii_N_embedding x), <- (Ascii.ascii_N_embedding y). f_equal. exact E1.
Qed.
(** The table of units of the OpenTelemetry-to-Prometheus conventions. *)
Local Open Scope string_scope.
Definition unit_words : list (string * string) :=
  [("d", "days"); ("h", "hours"); ("min", "minutes"); ("s", "seconds"); ("ms", "milliseconds"); ("us", "microseconds"); ("ns", "nanoseconds");
   ("By", "bytes"); ("KiBy", "kibibytes"); ("MiBy", "mebibytes"); ("GiBy", "gibibytes"); ("TiBy", "tibibytes");
   ("KBy", "kilobytes"); ("MBy", "megabytes"); ("GBy", "gigabytes"); ("TBy", "terabytes");
   ("B", "bytes"); ("KB", "kilobytes"); ("MB", "megabytes"); ("GB", "gigabytes"); ("TB", "terabytes");
   ("m", "meters"); ("V", "volts"); ("A", "amperes"); ("J", "joules"); ("W", "watts"); ("g", "grams");
   ("Cel", "celsius"); ("Hz", "hertz"); ("1", "ratio"); ("%", "percent")].
Definition per_words : list (string * string) :=
  [("s", "second"); ("m", "minute"); ("h", "hour"); ("d", "day"); ("w", "week"); ("mo", "month"); ("y", "year")].
(** Units not said in front of a per: times and plain numbers. *)
Definition unsaid : list string := ["1"; "d"; "h"; "min"; "s"; "ms"; "us"; "ns"].
Local Close Scope string_scope.
Definition known (u w : list N) := exists k v, In (k, v) unit_words /\ u = of_string k /\ w = of_string v.
Definition known_per (u w : list N) := exists k v, In (k, v) per_words /\ u = of_string k /\ w = of_string v.
Definition no_ratio (u : list N) := exists k, In k unsaid /\ u = of_string k.
Lemma units_nodup : NoDup (map fst prom_units) /\ NoDup (map fst prom_per_units).
Proof. split; cbn; repeat (constructor; [cbn; intuition discriminate|]); constructor. Qed.
Lemma assoc_iff t u w : NoDup (map fst t) -> assoc_str u t = Some w <-> exists k v, In (k, v) t /\ u = of_string k /\ w = of_string v.
Proof. intros Hn. split; [apply assoc_in|]. intros (k & v & H1 & H2 & ->). apply assoc_nodup with k; auto. apply of_string_inj. Qed.
Theorem C63_unit_suffix : forall u s, unit_suffix u = Some s <->
  known u s \/
  ((forall w, ~ known u w) /\ exists a b p, u = a ++ 47 :: b /\ ~ In 47 a /\ known_per b p /\
    ((exists f, known a f /\ ~ no_ratio a /\ s = f ++ of_string "_per_" ++ p) \/
     ((no_ratio a \/ forall f, ~ known a f) /\ s = of_string "per_" ++ p))).
Proof.
  intros u s.
  assert (K : forall u w, assoc_str u prom_units = Some w <-> known u w) by (intros; apply assoc_iff, units_nodup).
  assert (P : forall u w, assoc_str u prom_per_units = Some w <-> known_per u w) by (intros; apply assoc_iff, units_nodup).
  assert (R : forall u, existsb (fun k => str_eqb u (of_string k)) non_applicable = true <-> no_ratio u).
  { intros v. rewrite existsb_exists. unfold no_ratio. split; intros (k & H1 & H2); exists k; (split; [exact H1|]).
    - destruct (str_eqb_spec v (of_string k)); [assumption|discriminate].
    - subst. apply str_eqb_refl. }
  assert (KF : forall u w w', known u w -> known u w' -> w = w') by (intros x w w' H1 H2; apply (proj2 (K _ _)) in H1, H2; congruence).
  assert (PF : forall u w w', known_per u w -> known_per u w' -> w = w') by (intros x w w' H1 H2; apply (proj2 (P _ _)) in H1, H2; congruence).
  unfold unit_suffix. generalize (of_string "per_") (of_string "_per_"). intros pe pe'. destruct u as [|c r].
  { split; [discriminate|]. intros [H|(_ & a & b & p & E & _)].
    - apply (proj2 (K _ _)) in H. vm_compute in H. discriminate.
    - destruct a; discriminate. }
  set (u := c :: r). clearbody u. clear c r.
  destruct (assoc_str u prom_units) as [m|] eqn:E.
  { pose proof (proj1 (K _ _) E) as Km. split; [intros X; injection X as <-; left; exact Km|]. intros [H|[H _]]; [f_equal; eapply KF; eassumption|]. exfalso. eapply H, Km. }
  assert (Nk : forall w, ~ known u w) by (intros w X; apply (proj2 (K _ _)) in X; congruence).
  destruct (split_once 47 u) as [[a b]|] eqn:Es.
  - apply split_once_spec in Es. destruct Es as [Eu La]. 
    assert (U : forall a' b', u = a' ++ 47 :: b' -> ~ In 47 a' -> a' = a /\ b' = b).
    { intros a' b' E' L'. rewrite E' in Eu. clear -Eu La L'. revert a Eu La. induction a' as [|x a' IH]; intros [|y a] Eu La; cbn in *.
      - injection Eu as <-. auto.
      - injection Eu as <- _. exfalso. apply La. left. reflexivity.
      - injection Eu as -> _. exfalso. apply L'. left. reflexivity.
      - injection Eu as <- Eu. destruct (IH ltac:(tauto) a Eu) as [-> ->]; [|auto]. intros X. apply La. right. exact X. }
    assert (La' : ~ In 47 a) by exact La.
    split.
    + intros X. right. split; [exact Nk|]. exists a, b.
      destruct (existsb _ _) eqn:Er, (assoc_str a prom_units) as [f|] eqn:Ea, (assoc_str b prom_per_units) as [p|] eqn:Eb; try discriminate; injection X as <-; exists p; (split; [exact Eu|split; [exact La'|split; [apply P, Eb|]]]).
      * right. split; [left; apply R, Er|reflexivity].
      * right. split; [left; apply R, Er|reflexivity].
      * left. exists f. split; [apply K, Ea|]. split; [|reflexivity]. intros X. apply (proj2 (R _)) in X. congruence.
      * right. split; [right; intros f X; apply (proj2 (K _ _)) in X; congruence|reflexivity].
    + intros [H|[_ H]]; [exfalso; eapply Nk, H|]. destruct H as (a' & b' & p & E1 & E2 & E3 & H). destruct (U _ _ E1 E2) as [-> ->]. clear E1 E2. apply (proj2 (P _ _)) in E3. rewrite E3.
      destruct H as [(f & H1 & H2 & ->)|([H|H] & ->)].
      * apply (proj2 (K _ _)) in H1. rewrite H1. destruct (existsb _ _) eqn:Er; [exfalso; apply H2, R, Er|reflexivity].
      * apply (proj2 (R _)) in H. rewrite H. destruct (assoc_str a prom_units); reflexivity.
      * destruct (assoc_str a prom_units) as [f|] eqn:Ea; [exfalso; eapply H, K, Ea|]. destruct (existsb _ _); reflexivity.
  - split; [discriminate|]. intros [H|[_ H]]; [exfalso; eapply Nk, H|]. destruct H as (a & b & p & E1 & E2 & _). exfalso.
    rewrite E1, split_once_app in Es; [discriminate|exact E2].
Qed.
Print Assumptions C63_unit_suffix.

Lemma type_and_name_valid alnum c m t n : alnum_ok alnum -> ascii (me_name m) -> me_name m <> [] -> (forall ns, namespace c = Some ns -> metric_grammar ns) ->
  type_and_name alnum c m = Some (t, n) -> metric_grammar n.
Proof.
  intros Ha Hs Hn Hns. unfold type_and_name. destruct (amdata_type (me_data m)) as [[t' mono]|]; [|discriminate]. intros E. injection E as <- <-.
  assert (G : metric_grammar (get_name alnum c m)).
  { rewrite get_name_shape. pose proof (sanitize_valid alnum _ Ha Hs Hn) as Sv.
    assert (R : Forall name_rest (us (if without_units c then None else unit_suffix (me_unit m)))).
    { destruct (without_units c); [constructor|]. destruct (unit_suffix (me_unit m)) eqn:Eu; [|constructor]. constructor; [unfold name_rest; tauto|]. eapply suffix_rest, Eu. }
    destruct (namespace c) as [ns|] eqn:En; cbn [opt_app].
    - apply grammar_app; [apply Hns; reflexivity|]. apply Forall_app. split; [apply grammar_rest, Sv|exact R].
    - cbn. apply grammar_app; assumption. }
  destruct (mono && negb (without_counter_suffixes c)); [|exact G]. apply grammar_app; [exact G|]. apply plain_rest. reflexivity.
Qed.

(** Every exported metric's name is a Prometheus metric name, when the instrument's name is
    ASCII and the namespace, if any, is itself a metric name. *)
Theorem C63_metric_names : forall alnum c m t n, alnum_ok alnum -> ascii (me_name m) -> me_name m <> [] ->
  (forall ns, namespace c = Some ns -> metric_grammar ns) ->
  type_and_name alnum c m = Some (t, n) -> metric_grammar n.
Proof. exact type_and_name_valid. Qed.
Print Assumptions C63_metric_names.

(** In particular for every instrument name the API accepts, without a view's rename. *)
Theorem C63_accepted_names : forall alnum c m t n, alnum_ok alnum -> validate_name (me_name m) = true ->
  (forall ns, namespace c = Some ns -> exists ns0, ns = with_namespace ns0 /\ metric_grammar ns0) ->
  type_and_name alnum c m = Some (t, n) -> metric_grammar n.
Proof.
  intros alnum c m t n Ha Hv Hns. apply validate_name_spec in Hv. destruct Hv as (x & r & E & H1 & H2 & H3). apply type_and_name_valid; [exact Ha| | |].
  - rewrite E. constructor; [unfold letter in *; lia|]. eapply List.Forall_impl; [|exact H2]. intros y Hy. unfold name_char, letter in Hy. cbv beta in *. lia.
  - rewrite E. discriminate.
  - intros ns En. destruct (Hns ns En) as (ns0 & -> & H). unfold with_namespace. destruct (rev ns0) as [|y q]; [apply grammar_app; [exact H|repeat constructor; unfold name_rest; tauto]|].
    assert (metric_grammar (ns0 ++ [95])) by (apply grammar_app; [exact H|repeat constructor; unfold name_rest; tauto]).
    destruct (N.eqb_spec y 95) as [->|Hy]; [exact H|]. destruct y as [|p]; [assumption|]. do 7 (destruct p as [p|p|]; try assumption).
Qed.
Print Assumptions C63_accepted_names.

(** A name with a non-ASCII letter, which a view may give, is exported as it is; so is an
    invalid namespace; and the empty name stays empty. *)
Theorem C119_metric_names_refuted : exists alnum c m t n, alnum_ok alnum /\ me_name m <> [] /\ namespace c = None /\ type_and_name alnum c m = Some (t, n) /\ ~ metric_grammar n.
Proof.
  exists (fun c => is_alnum c || (c =? 233)), (mk_cfg false false false false None None), (mk_metric [233] [] [] (DU64 (MGauge [] None 0%Z))), GAUGE, [233].
  split; [|split; [discriminate|split; [reflexivity|split; [reflexivity|]]]].
  - intros c Hc. rewrite <- is_alnum_spec. destruct (N.eqb_spec c 233); [lia|]. rewrite orb_false_r. reflexivity.
  - intros (c & r & E & H & _). injection E as <- <-. unfold name_first, letter in H. lia.
Qed.
Print Assumptions C119_metric_names_refuted.
Theorem C119_namespace_refuted : exists ns m t n, validate_name (me_name m) = true /\
  type_and_name is_alnum (mk_cfg false false false false (Some (with_namespace ns)) None) m = Some (t, n) /\ ~ metric_grammar n.
Proof.
  exists (of_string "my-app"), (mk_metric (of_string "hits") [] [] (DU64 (MGauge [] None 0%Z))), GAUGE, (of_string "my-app_hits").
  split; [reflexivity|split; [reflexivity|]].
  intros (c & r & E & _ & H). vm_compute in E. injection E as <- <-. inversion H as [|? ? _ H1]; subst. inversion H1 as [|? ? H2 _]; subst. unfold name_rest, letter, digit in H2. lia.
Qed.
Print Assumptions C119_namespace_refuted.

(** ** Labels *)
Section labels.
Context (show : value -> str).
Definition blt (a b : list N * list (list N)) : Prop := str_cmp (fst a) (fst b) = Lt.
Definition shows (k : list N) (kvs : list attr) : list (list N) := map (fun kv => show (snd kv)) (filter (fun kv => str_eqb k (sanitize_kv (fst kv))) kvs).
Lemma str_cmp_gt a b : str_cmp a b = Gt -> str_cmp b a = Lt.
Proof. intros E. rewrite str_cmp_antisym, E. reflexivity. Qed.
Lemma bt_push_in k v : forall m, StronglySorted blt m -> forall k' l', In (k', l') (bt_push k v m) <->
  (k' <> k /\ In (k', l') m) \/ (k' = k /\ ((exists l, In (k, l) m /\ l' = l ++ [v]) \/ ((forall l, ~ In (k, l) m) /\ l' = [v]))).
Proof.
  induction m as [|[k1 l1] m IH]; intros Hs k' l'; cbn [bt_push].
  - cbn. split; [intros [E|[]]; injection E as <- <-; right; split; [reflexivity|right; auto]|]. intros [[_ []]|[-> [(l & [] & _)|[_ ->]]]]. auto.
  - inversion Hs as [|? ? S1 S2]; subst. rewrite List.Forall_forall in S2.
    destruct (str_cmp k k1) eqn:E.
    + apply str_cmp_eq in E. subst k1. assert (Nk : forall l, ~ In (k, l) m) by (intros l X; specialize (S2 _ X); unfold blt in S2; cbn in S2; rewrite str_cmp_refl in S2; discriminate).
      cbn [In]. split.
      * intros [X|X]; [injection X as <- <-; right; split; [reflexivity|left; exists l1; auto]|]. left. split; [|auto]. intros ->. eapply Nk, X.
      * intros [[H1 [X|X]]|[-> [(l & [X|X] & ->)|[X _]]]]; [injection X as <- _; contradiction|auto|injection X as <-; auto|exfalso; eapply Nk, X|exfalso; eapply X; auto].
    + assert (Nk : forall l, ~ In (k, l) ((k1, l1) :: m)).
      { intros l [X|X]; [injection X as -> _; rewrite str_cmp_refl in E; discriminate|]. specialize (S2 _ X). unfold blt in S2. cbn in S2. rewrite (str_cmp_antisym k k1), E in S2. discriminate. }
      cbn [In]. split.
      * intros [X|X]; [injection X as <- <-; right; split; [reflexivity|right; split; [exact Nk|reflexivity]]|]. left. split; [|exact X]. intros ->. eapply Nk, X.
      * intros [[_ X]|[-> [(l & X & _)|[_ ->]]]]; [auto|exfalso; eapply Nk, X|auto].
    + cbn [In]. rewrite (IH S1). assert (k1 <> k) by (intros ->; rewrite str_cmp_refl in E; discriminate). split.
      * intros [X|[[H1 X]|[-> [(l & X & ->)|[X ->]]]]]; [injection X as <- <-; left; auto|left; auto|right; split; [reflexivity|left; exists l; auto]|].
        right. split; [reflexivity|right; split; [|reflexivity]]. intros l [Y|Y]; [injection Y as Y _; contradiction|eapply X, Y].
      * intros [[H1 [X|X]]|[-> [(l & [X|X] & ->)|[X ->]]]]; [auto|right; left; auto|injection X as X _; contradiction|right; right; split; [reflexivity|left; exists l; auto]|].
        right. right. split; [reflexivity|right; split; [|reflexivity]]. intros l Y. eapply X. right. exact Y.
Qed.
Lemma bt_push_sorted k v : forall m, StronglySorted blt m -> StronglySorted blt (bt_push k v m).
Proof.
  induction m as [|[k1 l1] m IH]; intros Hs; cbn [bt_push]; [repeat constructor|]. inversion Hs as [|? ? S1 S2]; subst. destruct (str_cmp k k1) eqn:E.
  - apply str_cmp_eq in E. subst. constructor; [exact S1|]. exact S2.
  - constructor; [exact Hs|]. constructor; [exact E|]. eapply List.Forall_impl; [|exact S2]. intros [k2 l2] H2. unfold blt in *. cbn in *. eapply str_cmp_trans; eassumption.
  - constructor; [apply IH, S1|]. rewrite List.Forall_forall in *. intros [k2 l2] X. apply (proj1 (bt_push_in k v m S1 k2 l2)) in X. destruct X as [[_ X]|[-> _]]; [exact (S2 _ X)|]. apply str_cmp_gt, E.
Qed.
Definition bt_build (kvs : list attr) := fold_left (fun m kv => bt_push (sanitize_kv (fst kv)) (show (snd kv)) m) kvs [].
Lemma bt_build_snoc kvs kv : bt_build (kvs ++ [kv]) = bt_push (sanitize_kv (fst kv)) (show (snd kv)) (bt_build kvs).
Proof. unfold bt_build. rewrite fold_left_app. reflexivity. Qed.
Lemma bt_build_sorted kvs : StronglySorted blt (bt_build kvs).
Proof. induction kvs as [|kv kvs IH] using rev_ind; [constructor|]. rewrite bt_build_snoc. apply bt_push_sorted, IH. Qed.
Lemma shows_app k a b : shows k (a ++ b) = shows k a ++ shows k b.
Proof. unfold shows. rewrite filter_app, map_app. reflexivity. Qed.
Lemma bt_build_in : forall kvs k l, In (k, l) (bt_build kvs) <-> l = shows k kvs /\ In k (map (fun kv : attr => sanitize_kv (fst kv)) kvs).
Proof.
  induction kvs as [|kv kvs IH] using rev_ind; intros k l; [cbn; tauto|]. rewrite bt_build_snoc, (bt_push_in _ _ _ (bt_build_sorted kvs)), shows_app, map_app, in_app_iff, IH. cbn [map In].
  set (k0 := sanitize_kv (fst kv)).
  assert (Sk : shows k [kv] = if str_eqb k k0 then [show (snd kv)] else []) by (unfold shows; cbn [filter]; fold k0; destruct (str_eqb k k0); reflexivity).
  assert (Z : ~ In k0 (map (fun kv : attr => sanitize_kv (fst kv)) kvs) -> shows k0 kvs = []).
  { intros Hn. unfold shows. clear IH Sk. induction kvs as [|x kvs IHk]; [reflexivity|]. cbn [filter]. cbn in Hn. destruct (str_eqb_spec k0 (sanitize_kv (fst x))) as [E|E]; [exfalso; apply Hn; left; symmetry; exact E|]. apply IHk. tauto. }
  rewrite Sk. destruct (str_eqb_spec k k0) as [->|Hk].
  - split.
    + intros [[X _]|[_ [(l0 & X & ->)|[X ->]]]]; [contradiction| |].
      * apply (proj1 (IH k0 l0)) in X. destruct X as [-> _]. split; [reflexivity|auto].
      * rewrite Z; [split; [reflexivity|auto]|]. intros Y. apply (X (shows k0 kvs)). apply IH. auto.
    + intros [-> _]. right. split; [reflexivity|]. destruct (in_dec (list_eq_dec N.eq_dec) k0 (map (fun kv : attr => sanitize_kv (fst kv)) kvs)) as [Y|Y].
      * left. exists (shows k0 kvs). split; [apply IH; auto|reflexivity].
      * right. split; [|rewrite Z; [reflexivity|exact Y]]. intros l0 X. apply (proj1 (IH k0 l0)) in X. apply Y, X.
  - rewrite app_nil_r. split.
    + intros [[_ [X1 X2]]|[X _]]; [auto|contradiction].
    + intros [X1 [X2|[X2|[]]]]; [auto|]. subst. contradiction.
Qed.

Definition sle (a b : list N) : Prop := str_cmp a b <> Gt.
Lemma str_sort_perm : forall l, Permutation (str_sort l) l.
Proof.
  assert (I : forall a l, Permutation (str_insert a l) (a :: l)).
  { intros a l. induction l as [|b l IH]; cbn [str_insert]; [reflexivity|]. destruct (str_cmp a b); [reflexivity|reflexivity|]. rewrite IH. apply perm_swap. }
  induction l as [|a l IH]; cbn; [reflexivity|]. rewrite I. constructor. exact IH.
Qed.
Lemma sle_trans a b c : sle a b -> sle b c -> sle a c.
Proof.
  unfold sle. destruct (str_cmp a b) eqn:E1; [|destruct (str_cmp b c) eqn:E2|contradiction]; intros _ H.
  - apply str_cmp_eq in E1. subst. exact H.
  - apply str_cmp_eq in E2. subst. rewrite E1. discriminate.
  - rewrite (str_cmp_trans _ _ _ E1 E2). discriminate.
  - contradiction.
Qed.
Lemma str_sort_sorted : forall l, StronglySorted sle (str_sort l).
Proof.
  assert (I : forall a l, StronglySorted sle l -> StronglySorted sle (str_insert a l)).
  { intros a l. induction l as [|b l IH]; intros Hs; cbn [str_insert]; [repeat constructor|]. inversion Hs as [|? ? S1 S2]; subst.
    assert (P : sle a b -> StronglySorted sle (a :: b :: l)).
    { intros X. constructor; [exact Hs|]. constructor; [exact X|]. eapply List.Forall_impl; [|exact S2]. intros c Hc. eapply sle_trans; eassumption. }
    destruct (str_cmp a b) eqn:E; [apply P; unfold sle; rewrite E; discriminate|apply P; unfold sle; rewrite E; discriminate|].
    constructor; [apply IH, S1|]. assert (Hb : sle b a) by (unfold sle; rewrite (str_cmp_gt _ _ E); discriminate).
    rewrite List.Forall_forall in *. intros x Hx.
    assert (Px : Permutation (str_insert a l) (a :: l)).
    { clear. induction l as [|b l IH]; cbn [str_insert]; [reflexivity|]. destruct (str_cmp a b); [reflexivity|reflexivity|]. rewrite IH. apply perm_swap. }
    apply (Permutation_in _ Px) in Hx. destruct Hx as [<-|Hx]; [exact Hb|apply S2, Hx]. }
  induction l as [|a l IH]; [constructor|]. cbn. apply I, IH.
Qed.
End labels.

(** The labels of a point are one label per sanitised attribute key, in strictly increasing
    order of name (so with distinct names), whose value is every value of the attributes
    with that key, in order, joined by semicolons; then the scope's and the resource's. *)
Theorem C63_labels : forall show kvs extra, exists ls,
  get_attrs show kvs extra = ls ++ extra /\
  StronglySorted (fun a b => str_cmp (fst a) (fst b) = Lt) ls /\
  (forall k, In k (map fst ls) <-> exists kv, In kv kvs /\ sanitize_kv (fst kv) = k) /\
  (forall k v, In (k, v) ls -> exists vals,
     v = join [59] vals /\ StronglySorted sle vals /\
     Permutation vals (map (fun kv => show (snd kv)) (filter (fun kv => str_eqb k (sanitize_kv (fst kv))) kvs))).
Proof.
  intros show kvs extra. exists (map (fun e => (fst e, join [59] (str_sort (snd e)))) (bt_build show kvs)). split; [reflexivity|].
  assert (In1 : forall k l, In (k, l) (bt_build show kvs) <-> l = shows show k kvs /\ In k (map (fun kv : attr => sanitize_kv (fst kv)) kvs)) by (apply bt_build_in).
  split; [|split].
  - clear In1. pose proof (bt_build_sorted show kvs) as H. induction H as [|a l Hs IH HF]; cbn; [constructor|]. constructor; [exact IH|]. apply List.Forall_forall. intros x Hx. apply in_map_iff in Hx. destruct Hx as (y & <- & Hy). rewrite List.Forall_forall in HF. exact (HF y Hy).
  - intros k. rewrite map_map. cbn [fst]. rewrite in_map_iff. split.
    + intros ([k' l] & <- & Hx). apply (proj1 (In1 _ _)) in Hx. destruct Hx as [_ Hx]. apply in_map_iff in Hx. destruct Hx as (kv & H1 & H2). exists kv. auto.
    + intros (kv & H1 & <-). exists (sanitize_kv (fst kv), shows show (sanitize_kv (fst kv)) kvs). split; [reflexivity|]. apply In1. split; [reflexivity|]. apply in_map_iff. exists kv. auto.
  - intros k v Hx. apply in_map_iff in Hx. destruct Hx as ([k' l] & E & Hx). cbn in E. injection E as <- <-. apply (proj1 (In1 _ _)) in Hx. destruct Hx as [-> _].
    exists (str_sort (shows show k' kvs)). split; [reflexivity|split; [apply str_sort_sorted|apply str_sort_perm]].
Qed.
Print Assumptions C63_labels.

(** A label name has the key's length, made of letters, digits, colons and underscores; it
    is a Prometheus label name exactly when the key is not empty, does not start with a
    digit and has no colon. *)
Theorem C63_label_names : forall k,
  Forall2 (fun x y => (((letter x \/ digit x) \/ x = 58) /\ y = x) \/ (~ ((letter x \/ digit x) \/ x = 58) /\ y = 95)) k (sanitize_kv k) /\
  (label_grammar (sanitize_kv k) <-> k <> [] /\ (forall x r, k = x :: r -> ~ digit x) /\ ~ In 58 k).
Proof.
  assert (H1 : forall c, let y := if is_alnum c || (c =? 58) then c else 95 in (((letter c \/ digit c) \/ c = 58) /\ y = c) \/ (~ ((letter c \/ digit c) \/ c = 58) /\ y = 95)).
  { intros c y. subst y. pose proof (is_alnum_spec c) as H. destruct (is_alnum c) eqn:E; cbn [orb]; [left; tauto|].
    assert (~ (letter c \/ digit c)) by (intros X; apply (proj2 H) in X; discriminate). destruct (N.eqb_spec c 58); [left; subst; tauto|right; tauto]. }
  assert (H2 : forall k, Forall2 (fun x y => (((letter x \/ digit x) \/ x = 58) /\ y = x) \/ (~ ((letter x \/ digit x) \/ x = 58) /\ y = 95)) k (sanitize_kv k)).
  { induction k as [|c k IH]; [constructor|]. constructor; [apply H1|exact IH]. }
  intros k. split; [apply H2|]. specialize (H2 k). split.
  - intros (c & r & E & Hc & Hr). split; [intros ->; discriminate E|]. rewrite E in H2. inversion H2 as [|x ? k' ? Hx Hk]; subst. split.
    + intros x' r' X. injection X as <- <-. intros D. destruct Hx as [[_ ->]|[X _]]; [|tauto]. unfold letter, digit in *. lia.
    + intros [->|X]; [destruct Hx as [[_ ->]|[X _]]; [unfold letter in Hc; lia|tauto]|]. clear -X Hk Hr. revert r Hk Hr. induction k' as [|y k' IH]; intros r Hk Hr; [destruct X|].
      inversion Hk as [|? z ? r' Hz Hk']; subst. inversion Hr; subst. destruct X as [->|X]; [|eapply IH; eassumption]. destruct Hz as [[_ ->]|[Y _]]; [unfold letter, digit in *; lia|tauto].
  - intros (K1 & K2 & K3). destruct k as [|x k]; [contradiction|]. remember (sanitize_kv (x :: k)) as s eqn:Es. inversion H2 as [|? c ? r Hx Hk E1 E2]; subst. exists c, r. split; [reflexivity|]. split.
    + specialize (K2 x k eq_refl). destruct Hx as [[Hx ->]|[_ ->]]; [|auto]. destruct Hx as [[Hx|Hx]|Hx]; [auto|contradiction|exfalso; apply K3; left; exact Hx].
    + assert (K4 : ~ In 58 k) by (intros X; apply K3; right; exact X). clear -Hk K4. induction Hk as [|y z k r Hz Hk IH]; constructor.
      * destruct Hz as [[Hz ->]|[_ ->]]; [|auto]. destruct Hz as [Hz|Hz]; [tauto|]. exfalso. apply K4. left. exact Hz.
      * apply IH. intros X. apply K4. right. exact X.
Qed.
Print Assumptions C63_label_names.

(** Labels that are not Prometheus label names, and a point with the same label twice. *)
Theorem C119_label_names_refuted : ~ label_grammar (sanitize_kv (of_string "1st")) /\ ~ label_grammar (sanitize_kv (of_string "a:b")) /\ ~ label_grammar (sanitize_kv []).
Proof.
  split; [|split]; intros H; apply C63_label_names in H; destruct H as (H1 & H2 & H3).
  - eapply H2; [reflexivity|]. unfold digit. vm_compute. split; discriminate.
  - apply H3. vm_compute. auto.
  - contradiction.
Qed.
Print Assumptions C119_label_names_refuted.

(** ** Values *)
(** What each point becomes: one sample with the point's labels; a histogram's buckets are
    cumulative and there is one per bound. *)
Fixpoint total (l : list N) : N := match l with [] => 0 | x :: l => x + total l end.
Lemma cumulate_spec : forall bounds counts acc, acc + total counts < 2 ^ 64 ->
  (List.length counts < List.length bounds)%nat /\ cumulate acc bounds counts = None \/
  (List.length bounds <= List.length counts)%nat /\ exists bs, cumulate acc bounds counts = Some bs /\ map fst bs = bounds /\
    forall i b n, nth_error bs i = Some (b, n) -> n = acc + total (firstn (S i) counts).
Proof.
  induction bounds as [|b bounds IH]; intros counts acc Hb.
  - right. split; [cbn; lia|]. exists []. split; [reflexivity|]. split; [reflexivity|]. intros [|i] b n E; discriminate.
  - destruct counts as [|c counts]; [left; split; [cbn; lia|reflexivity]|]. cbn [cumulate total] in *. rewrite (N.mod_small (acc + c)) by lia.
    destruct (IH counts (acc + c)) as [[H1 H2]|[H1 (bs & H2 & H3 & H4)]]; [lia| |]; cbv zeta; rewrite H2; cbn [option_map List.length].
    + left. split; [lia|reflexivity].
    + right. split; [lia|]. exists ((b, acc + c) :: bs). split; [reflexivity|]. split; [cbn; rewrite H3; reflexivity|].
      intros [|i] b' n E.
      * cbn [nth_error] in E. assert (n = acc + c) as -> by congruence. cbn [firstn total]. rewrite firstn_O. cbn [total]. lia.
      * cbn [nth_error] in E. rewrite (H4 _ _ _ E). cbn [firstn total]. lia.
Qed.
Lemma total_firstn_le : forall l i, total (firstn i l) <= total l.
Proof. induction l; intros [|i]; cbn [firstn total]; try lia. specialize (IHl i). lia. Qed.
Lemma total_firstn_mono : forall l i j, (i <= j)%nat -> total (firstn i l) <= total (firstn j l).
Proof. induction l; intros [|i] [|j] H; cbn [firstn total]; try lia. specialize (IHl i j ltac:(lia)). lia. Qed.

(** The buckets exported for a point with as many counts as bounds and one more, and counts
    adding up to the count (as C47 proves of the aggregation): for each bound in order, the
    number of measurements in the buckets up to it; so they never decrease and never exceed
    the count.  A point with fewer counts than bounds makes the scrape panic. *)
Theorem C63_buckets : forall bounds counts count, total counts = count -> count < 2 ^ 64 ->
  ((List.length bounds <= List.length counts)%nat -> exists bs,
    cumulate 0 bounds counts = Some bs /\ map fst bs = bounds /\
    (forall i b n, nth_error bs i = Some (b, n) -> n = total (firstn (S i) counts) /\ n <= count) /\
    (forall i j b n b' n', (i <= j)%nat -> nth_error bs i = Some (b, n) -> nth_error bs j = Some (b', n') -> n <= n')) /\
  ((List.length counts < List.length bounds)%nat -> cumulate 0 bounds counts = None).
Proof.
  intros bounds counts count Ht Hc. destruct (cumulate_spec bounds counts 0) as [[H1 H2]|[H1 (bs & H2 & H3 & H4)]]; [lia|split; [lia|auto]|].
  split; [|lia]. intros _. exists bs. split; [exact H2|]. split; [exact H3|]. split.
  - intros i b n E. pose proof (H4 _ _ _ E) as En. pose proof (total_firstn_le counts (S i)). lia.
  - intros i j b n b' n' Hij E E'. rewrite (H4 _ _ _ E), (H4 _ _ _ E'). pose proof (total_firstn_mono counts (S i) (S j) ltac:(lia)). lia.
Qed.
Print Assumptions C63_buckets.

(** One sample per data point, in order, with its labels and its value as a float. *)
Inductive sample_of (show : value -> str) (extra : list (list N * list N)) : amdata -> nat -> list (list N * list N) -> mtype -> fvalue -> Prop :=
| so_gauge_f ps s t i p : nth_error ps i = Some p -> sample_of show extra (DF64 (MGauge ps s t)) i (get_attrs show (n_attrs p) extra) GAUGE (FGauge (n_value p))
| so_gauge_u ps s t i p : nth_error ps i = Some p -> sample_of show extra (DU64 (MGauge ps s t)) i (get_attrs show (n_attrs p) extra) GAUGE (FGauge (f64_of_Z (n_value p)))
| so_gauge_i ps s t i p : nth_error ps i = Some p -> sample_of show extra (DI64 (MGauge ps s t)) i (get_attrs show (n_attrs p) extra) GAUGE (FGauge (f64_of_Z (n_value p)))
| so_counter_f ps s t tm i p : nth_error ps i = Some p -> sample_of show extra (DF64 (MSum ps s t tm true)) i (get_attrs show (n_attrs p) extra) COUNTER (FCounter (n_value p))
| so_counter_u ps s t tm i p : nth_error ps i = Some p -> sample_of show extra (DU64 (MSum ps s t tm true)) i (get_attrs show (n_attrs p) extra) COUNTER (FCounter (f64_of_Z (n_value p)))
| so_counter_i ps s t tm i p : nth_error ps i = Some p -> sample_of show extra (DI64 (MSum ps s t tm true)) i (get_attrs show (n_attrs p) extra) COUNTER (FCounter (f64_of_Z (n_value p)))
| so_updown_f ps s t tm i p : nth_error ps i = Some p -> sample_of show extra (DF64 (MSum ps s t tm false)) i (get_attrs show (n_attrs p) extra) GAUGE (FGauge (n_value p))
| so_updown_u ps s t tm i p : nth_error ps i = Some p -> sample_of show extra (DU64 (MSum ps s t tm false)) i (get_attrs show (n_attrs p) extra) GAUGE (FGauge (f64_of_Z (n_value p)))
| so_updown_i ps s t tm i p : nth_error ps i = Some p -> sample_of show extra (DI64 (MSum ps s t tm false)) i (get_attrs show (n_attrs p) extra) GAUGE (FGauge (f64_of_Z (n_value p)))
| so_hist_f ps s t tm i p bs : nth_error ps i = Some p -> cumulate 0 (h_bounds p) (h_buckets p) = Some bs ->
    sample_of show extra (DF64 (MHist ps s t tm)) i (get_attrs show (h_attrs p) extra) HISTOGRAM (FHist (h_sum p) (h_count p) bs)
| so_hist_u ps s t tm i p bs : nth_error ps i = Some p -> cumulate 0 (h_bounds p) (h_buckets p) = Some bs ->
    sample_of show extra (DU64 (MHist ps s t tm)) i (get_attrs show (h_attrs p) extra) HISTOGRAM (FHist (f64_of_Z (h_sum p)) (h_count p) bs)
| so_hist_i ps s t tm i p bs : nth_error ps i = Some p -> cumulate 0 (h_bounds p) (h_buckets p) = Some bs ->
    sample_of show extra (DI64 (MHist ps s t tm)) i (get_attrs show (h_attrs p) extra) HISTOGRAM (FHist (f64_of_Z (h_sum p)) (h_count p) bs).

Lemma all_some_nth {A B} (f : A -> option B) : forall l r, all_some (map f l) = Some r -> List.length r = List.length l /\ forall i x, nth_error l i = Some x -> exists y, nth_error r i = Some y /\ f x = Some y.
Proof.
  induction l as [|a l IH]; intros r; cbn.
  - intros E. injection E as <-. split; [reflexivity|]. intros [|i] x E; discriminate.
  - destruct (f a) eqn:Ea; [|discriminate]. destruct (all_some (map f l)) as [r'|] eqn:E; [|discriminate]. intros X. injection X as <-. destruct (IH r' eq_refl) as [H1 H2].
    split; [cbn; lia|]. intros [|i] x Ex; cbn in *; [injection Ex as <-; eauto|apply H2, Ex].
Qed.
Definition npoints {T} (d : mdata T) : nat := match d with MGauge ps _ _ => List.length ps | MSum ps _ _ _ _ => List.length ps | MHist ps _ _ _ => List.length ps | MExpo _ _ _ _ => O end.
Definition apoints (d : amdata) : nat := match d with DF64 d => npoints d | DU64 d => npoints d | DI64 d => npoints d end.

Theorem C63_samples : forall show name help extra d fs, add_metric show name help extra d = Some fs ->
  List.length fs = apoints d /\
  forall i, (i < apoints d)%nat -> exists labels t v, nth_error fs i = Some (mk_fam name help t labels v) /\ sample_of show extra d i labels t v.
Proof.
  assert (N1 : forall (T : Type) (l : list T) i, (i < List.length l)%nat -> exists x, nth_error l i = Some x).
  { intros T l i H. destruct (nth_error l i) eqn:E; eauto. apply nth_error_None in E. lia. }
  intros show name help extra [[ps ? ?|ps ? ? ? []|ps ? ? ?|ps ? ? ?]|[ps ? ?|ps ? ? ? []|ps ? ? ?|ps ? ? ?]|[ps ? ?|ps ? ? ? []|ps ? ? ?|ps ? ? ?]] fs E; cbn [add_metric add_points apoints npoints] in *;
  try (injection E as <-; split; [rewrite ?map_length; reflexivity|]; intros i Hi; try (exfalso; lia); destruct (N1 _ _ _ Hi) as (p & Ep); do 3 eexists; split;
    [rewrite (map_nth_error _ _ _ Ep); reflexivity|econstructor; exact Ep]).
  all: try (injection E as <-; split; [reflexivity|]; intros i Hi; exfalso; inversion Hi).
  all: destruct (all_some_nth _ _ _ E) as [L1 L2]; split; [exact L1|]; intros i Hi; destruct (N1 _ _ _ Hi) as (p & Ep); destruct (L2 _ _ Ep) as (y & Y1 & Y2); destruct (cumulate 0 (h_bounds p) (h_buckets p)) as [bs|] eqn:Ec; [|discriminate];
    injection Y2 as <-; do 3 eexists; (split; [exact Y1|econstructor; eassumption]).
Qed.
Print Assumptions C63_samples.

(** ** C80: families *)
Section families.
Context (alnum : char -> bool) (show : value -> str) (c : config).
(** Scraping again and again: each scrape is given what the reader collected. *)
Fixpoint scrapes (l : list (list attr * list (scope * list metric))) (s : seen) : option (list (list family)) :=
  match l with
  | [] => Some []
  | (res, sms) :: l => match collect alnum show c res sms s with None => None | Some (fs, s') => option_map (cons fs) (scrapes l s') end
  end.
(** The metrics a scrape passes over, in order. *)
Definition metrics_of (l : list (list attr * list (scope * list metric))) : list metric := flat_map (fun e => flat_map snd (snd e)) l.

Definition info (f : family) : Prop := f_name f = of_string "target_info" \/ f_name f = of_string "otel_scope_info".
(** The first metric with an exported name [n] fixes the type and the help of [n]. *)
Definition first_use (ms : list metric) (n : list N) (t : mtype) (h : list N) : Prop :=
  exists i m, nth_error ms i = Some m /\ type_and_name alnum c m = Some (t, n) /\ me_desc m = h /\
    forall j m', (j < i)%nat -> nth_error ms j = Some m' -> forall t', type_and_name alnum c m' <> Some (t', n).

Lemma mtype_eqb_spec a b : mtype_eqb a b = true <-> a = b.
Proof. destruct a, b; cbn; split; congruence. Qed.
Definition register (m : metric) (s : seen) : seen := match type_and_name alnum c m with None => s | Some (t, n) => match find_fam n s with Some _ => s | None => (n, (t, me_desc m)) :: s end end.
Lemma one_metric_spec extra m s fs s' : one_metric alnum show c extra m s = Some (fs, s') ->
  s' = register m s /\ forall f, In f fs -> exists t h, type_and_name alnum c m = Some (t, f_name f) /\ find_fam (f_name f) s' = Some (t, h) /\ f_type f = t /\ f_help f = h.
Proof.
  unfold one_metric, register. destruct (type_and_name alnum c m) as [[t n]|] eqn:E; [|intros X; injection X as <- <-; split; [reflexivity|intros f []]].
  assert (Ty : forall d fs name help labels, add_metric show name help labels d = Some fs -> forall f, In f fs -> f_name f = name /\ f_help f = help /\ exists mono, amdata_type d = Some (f_type f, mono)).
  { intros d fs0 name help labels E0 f Hf. apply C63_samples in E0. destruct E0 as [L1 L2]. apply In_nth_error in Hf. destruct Hf as (i & Hi).
    assert (Hlt : (i < apoints d)%nat) by (rewrite <- L1; apply nth_error_Some; congruence). destruct (L2 i Hlt) as (ls & t0 & v & H1 & H2).
    rewrite H1 in Hi. injection Hi as <-. cbn. split; [reflexivity|]. split; [reflexivity|]. inversion H2; subst; cbn; eauto. }
  assert (Tt : forall f mono, amdata_type (me_data m) = Some (f_type f, mono) -> f_type f = t).
  { intros f mono X. unfold type_and_name in E. rewrite X in E. injection E as <- _. reflexivity. }
  unfold validate. destruct (find_fam n s) as [[t' h]|] eqn:Ef.
  - destruct (mtype_eqb t' t) eqn:Et; cbn [negb].
    + apply mtype_eqb_spec in Et. subst t'. destruct (str_eqb_spec h (me_desc m)) as [->|Eh]; cbn [negb];
        destruct (add_metric _ _ _ _ _) as [fs0|] eqn:Ea; try discriminate; cbn [option_map]; intros X; injection X as <- <-; (split; [reflexivity|]); intros f Hf;
        destruct (Ty _ _ _ _ _ Ea f Hf) as (-> & -> & mono & Em); rewrite (Tt f mono Em); eauto 8.
    + intros X. injection X as <- <-. split; [reflexivity|intros f []].
  - destruct (add_metric _ _ _ _ _) as [fs0|] eqn:Ea; try discriminate. cbn [option_map]. intros X. injection X as <- <-. split; [reflexivity|]. intros f Hf.
    destruct (Ty _ _ _ _ _ Ea f Hf) as (En & -> & mono & Em). rewrite En, (Tt f mono Em). exists t, (me_desc m). cbn [find_fam]. rewrite str_eqb_refl. auto.
Qed.
Lemma register_keeps m s n v : find_fam n s = Some v -> find_fam n (register m s) = Some v.
Proof.
  intros H. unfold register. destruct (type_and_name alnum c m) as [[t n']|]; [|exact H]. destruct (find_fam n' s) eqn:E; [exact H|]. cbn [find_fam].
  destruct (str_eqb_spec n n') as [->|]; [congruence|exact H].
Qed.
Definition registers (ms : list metric) (s : seen) : seen := fold_left (fun s m => register m s) ms s.
Lemma registers_keeps : forall ms s n v, find_fam n s = Some v -> find_fam n (registers ms s) = Some v.
Proof. induction ms as [|m ms IH]; intros s n v H; [exact H|]. apply IH, register_keeps, H. Qed.
Lemma metrics_loop_spec : forall ms extra s fs s', metrics_loop alnum show c extra ms s = Some (fs, s') ->
  s' = registers ms s /\ forall f, In f fs -> find_fam (f_name f) s' = Some (f_type f, f_help f).
Proof.
  induction ms as [|m ms IH]; intros extra s fs s'; cbn [metrics_loop]; [intros E; injection E as <- <-; split; [reflexivity|intros f []]|].
  destruct (one_metric alnum show c extra m s) as [[fs1 s1]|] eqn:E1; [|discriminate]. destruct (metrics_loop alnum show c extra ms s1) as [[fs2 s2]|] eqn:E2; [|discriminate].
  cbn. intros X. injection X as <- <-. apply one_metric_spec in E1. destruct E1 as [-> H1]. apply IH in E2. destruct E2 as [-> H2]. split; [reflexivity|].
  intros f Hf. apply in_app_iff in Hf. destruct Hf as [Hf|Hf]; [|apply H2, Hf]. destruct (H1 f Hf) as (t & h & _ & K & <- & <-). apply registers_keeps, K.
Qed.
Lemma registers_app a b s : registers (a ++ b) s = registers b (registers a s).
Proof. apply fold_left_app. Qed.
Lemma scopes_loop_spec : forall sms labels s fs s', scopes_loop alnum show c labels sms s = Some (fs, s') ->
  s' = registers (flat_map snd sms) s /\ forall f, In f fs -> info f \/ find_fam (f_name f) s' = Some (f_type f, f_help f).
Proof.
  induction sms as [|[sc ms] sms IH]; intros labels s fs s'; cbn [scopes_loop flat_map snd]; [intros E; injection E as <- <-; split; [reflexivity|intros f []]|].
  cbv zeta. destruct (metrics_loop _ _ _ _ ms s) as [[fs1 s1]|] eqn:E1; [|discriminate]. destruct (scopes_loop _ _ _ labels sms s1) as [[fs2 s2]|] eqn:E2; [|discriminate].
  cbn [option_map fst snd]. intros X. injection X as <- <-. apply metrics_loop_spec in E1. destruct E1 as [-> H1]. apply IH in E2. destruct E2 as [-> H2]. rewrite registers_app. split; [reflexivity|].
  intros f Hf. rewrite !in_app_iff in Hf. destruct Hf as [Hf|[Hf|Hf]].
  - left. right. destruct (disable_scope_info c); [destruct Hf|]. destruct (sc_attrs sc); [destruct Hf|]. destruct Hf as [<-|[]]. reflexivity.
  - right. apply registers_keeps, H1, Hf.
  - apply H2, Hf.
Qed.
Lemma collect_spec res sms s fs s' : collect alnum show c res sms s = Some (fs, s') ->
  s' = registers (flat_map snd sms) s /\ forall f, In f fs -> info f \/ find_fam (f_name f) s' = Some (f_type f, f_help f).
Proof.
  unfold collect. destruct (scopes_loop _ _ _ _ sms s) as [[fs1 s1]|] eqn:E1; [|discriminate]. cbn. intros X. injection X as <- <-. apply scopes_loop_spec in E1. destruct E1 as [-> H]. split; [reflexivity|].
  intros f Hf. apply in_app_iff in Hf. destruct Hf as [Hf|Hf]; [|apply H, Hf]. left. left. destruct (disable_target_info c); [destruct Hf|]. destruct res; [destruct Hf|]. destruct Hf as [<-|[]]. reflexivity.
Qed.
Lemma scrapes_spec : forall l s out, scrapes l s = Some out -> forall fs f, In fs out -> In f fs -> info f \/ find_fam (f_name f) (registers (metrics_of l) s) = Some (f_type f, f_help f).
Proof.
  induction l as [|[res sms] l IH]; intros s out; cbn [scrapes]; [intros E; injection E as <-; intros fs f []|].
  destruct (collect alnum show c res sms s) as [[fs1 s1]|] eqn:E1; [|discriminate]. destruct (scrapes l s1) as [out1|] eqn:E2; [|discriminate]. cbn. intros X. injection X as <-.
  apply collect_spec in E1. destruct E1 as [-> H1]. intros fs f [<-|Hfs] Hf; unfold metrics_of; cbn [flat_map snd]; fold (metrics_of l); rewrite registers_app.
  - destruct (H1 f Hf) as [X|X]; [left; exact X|right; apply registers_keeps, X].
  - eapply IH; eassumption.
Qed.
Lemma registers_first : forall ms n v, find_fam n (registers ms []) = Some v <-> first_use ms n (fst v) (snd v).
Proof.
  induction ms as [|m ms IH] using rev_ind; intros n [t h]; cbn [fst snd].
  - cbn. split; [discriminate|]. intros ([|i] & m & E & _); discriminate.
  - rewrite registers_app. cbn [registers fold_left].
    assert (Old : forall t h, first_use ms n t h -> first_use (ms ++ [m]) n t h).
    { intros t0 h0 (i & m0 & E1 & E2 & E3 & E4). assert (i < List.length ms)%nat by (apply nth_error_Some; congruence). exists i, m0. rewrite nth_error_app1 by assumption. split; [exact E1|]. split; [exact E2|]. split; [exact E3|].
      intros j m' Hj. rewrite nth_error_app1 by lia. apply E4, Hj. }
    assert (Fun : forall ms t h t' h', first_use ms n t h -> first_use ms n t' h' -> t = t' /\ h = h').
    { intros l t1 h1 t2 h2 (i & m1 & E1 & E2 & E3 & E4) (j & m2 & F1 & F2 & F3 & F4). destruct (Nat.lt_trichotomy i j) as [L|[->|L]].
      - exfalso. eapply F4; eassumption.
      - rewrite E1 in F1. injection F1 as <-. rewrite E2 in F2. injection F2 as <-. subst. auto.
      - exfalso. eapply E4; eassumption. }
    assert (None_ : find_fam n (registers ms []) = None -> forall j m', nth_error ms j = Some m' -> forall t', type_and_name alnum c m' <> Some (t', n)).
    { intros Hn. cut (forall j, (j <= List.length ms)%nat -> forall k m', (k < j)%nat -> nth_error ms k = Some m' -> forall t', type_and_name alnum c m' <> Some (t', n)).
      { intros H j m' E. eapply (H (List.length ms)); [lia| |exact E]. apply nth_error_Some. congruence. }
      induction j as [|j IHj]; intros Hj k m' Hk E t' Et; [lia|]. destruct (Nat.eq_dec k j) as [->|]; [|eapply IHj; [lia| |exact E|exact Et]; lia].
      assert (first_use ms n t' (me_desc m')) as F. { exists j, m'. split; [exact E|]. split; [exact Et|]. split; [reflexivity|]. intros k m'' Hk'. apply IHj; lia. }
      apply (proj2 (IH n (t', me_desc m'))) in F. congruence. }
    unfold register. destruct (type_and_name alnum c m) as [[t1 n1]|] eqn:Em.
    + destruct (find_fam n1 (registers ms [])) as [v1|] eqn:E1.
      * rewrite IH. cbn [fst snd]. split; [apply Old|]. intros F. destruct F as (i & m0 & F1 & F2 & F3 & F4). destruct (Nat.lt_ge_cases i (List.length ms)) as [L|L].
        -- rewrite nth_error_app1 in F1 by exact L. exists i, m0. split; [exact F1|]. split; [exact F2|]. split; [exact F3|]. intros j m' Hj Ej. apply (F4 j m' Hj). rewrite nth_error_app1 by lia. exact Ej.
        -- exfalso. assert (i = List.length ms) as -> by (assert (i < List.length (ms ++ [m]))%nat by (apply nth_error_Some; congruence); rewrite app_length in *; cbn in *; lia).
           rewrite nth_error_app2, Nat.sub_diag in F1 by lia. cbn in F1. injection F1 as <-. rewrite Em in F2. injection F2 as -> ->.
           destruct v1 as [t2 h2]. apply (proj1 (IH n (t2, h2))) in E1. destruct E1 as (i & m0 & G1 & G2 & _). eapply F4; [|rewrite nth_error_app1; [exact G1|]|exact G2]; apply nth_error_Some; congruence.
      * cbn [find_fam]. destruct (str_eqb_spec n n1) as [->|Hn].
        -- assert (F : first_use (ms ++ [m]) n1 t1 (me_desc m)).
           { exists (List.length ms), m. rewrite nth_error_app2, Nat.sub_diag by lia. split; [reflexivity|]. split; [exact Em|]. split; [reflexivity|]. intros j m' Hj. rewrite nth_error_app1 by lia. apply None_, E1. }
           split; [intros X; injection X as <- <-; exact F|]. intros F'. destruct (Fun _ _ _ _ _ F F') as [-> ->]. reflexivity.
        -- rewrite IH. cbn [fst snd]. split; [apply Old|]. intros (i & m0 & F1 & F2 & F3 & F4). destruct (Nat.lt_ge_cases i (List.length ms)) as [L|L].
           ++ rewrite nth_error_app1 in F1 by exact L. exists i, m0. split; [exact F1|]. split; [exact F2|]. split; [exact F3|]. intros j m' Hj Ej. apply (F4 j m' Hj). rewrite nth_error_app1 by lia. exact Ej.
           ++ exfalso. rewrite nth_error_app2 in F1 by lia. destruct (i - List.length ms)%nat as [|k]; [|destruct k; discriminate]. cbn in F1. injection F1 as <-. rewrite Em in F2. injection F2 as _ <-. contradiction.
    + rewrite IH. cbn [fst snd]. split; [apply Old|]. intros (i & m0 & F1 & F2 & F3 & F4). destruct (Nat.lt_ge_cases i (List.length ms)) as [L|L].
      * rewrite nth_error_app1 in F1 by exact L. exists i, m0. split; [exact F1|]. split; [exact F2|]. split; [exact F3|]. intros j m' Hj Ej. apply (F4 j m' Hj). rewrite nth_error_app1 by lia. exact Ej.
      * exfalso. rewrite nth_error_app2 in F1 by lia. destruct (i - List.length ms)%nat as [|k]; [|destruct k; discriminate]. cbn in F1. injection F1 as <-. congruence.
Qed.
End families.

(** Over any number of scrapes, all families with one name (other than the two names the
    exporter uses itself) have one type and one help text: those of the first metric ever
    collected with that name. *)
Theorem C80_one_type_and_help : forall alnum show c l out fs f, scrapes alnum show c l [] = Some out -> In fs out -> In f fs -> ~ info f ->
  first_use alnum c (metrics_of l) (f_name f) (f_type f) (f_help f) /\
  forall fs' f', In fs' out -> In f' fs' -> f_name f' = f_name f -> f_type f' = f_type f /\ f_help f' = f_help f.
Proof.
  intros alnum show c l out fs f E Hfs Hf Hi. destruct (scrapes_spec alnum show c l [] out E fs f Hfs Hf) as [X|X]; [contradiction|].
  split; [apply (proj1 (registers_first alnum c _ _ (f_type f, f_help f))), X|]. intros fs' f' Hfs' Hf' En.
  destruct (scrapes_spec alnum show c l [] out E fs' f' Hfs' Hf') as [Y|Y]; [exfalso; apply Hi; unfold info in *; rewrite En in Y; exact Y|]. rewrite En, X in Y. injection Y as -> ->. auto.
Qed.
Print Assumptions C80_one_type_and_help.

(** A metric is dropped exactly when an earlier one with its exported name had another type
    (or it is an exponential histogram); otherwise all its points are exported. *)
Theorem C80_dropped_iff_type_conflict : forall alnum show c extra m before fs s', one_metric alnum show c extra m (registers alnum c before []) = Some (fs, s') ->
  s' = registers alnum c (before ++ [m]) [] /\
  forall t n, type_and_name alnum c m = Some (t, n) ->
  ((exists t' h, first_use alnum c before n t' h /\ t' <> t) /\ fs = []) \/
  ((forall t' h, first_use alnum c before n t' h -> t' = t) /\ List.length fs = apoints (me_data m) /\ exists h, add_metric show n h extra (me_data m) = Some fs).
Proof.
  intros alnum show c extra m before fs s' E. split; [rewrite registers_app; apply one_metric_spec in E; apply E|].
  intros t n Et. unfold one_metric in E. rewrite Et in E. unfold validate in E. destruct (find_fam n (registers alnum c before [])) as [[t' h]|] eqn:Ef.
  - pose proof (proj1 (registers_first alnum c before n (t', h)) Ef) as F. cbn [fst snd] in F. destruct (mtype_eqb t' t) eqn:Eq; cbn [negb] in E.
    + apply mtype_eqb_spec in Eq. subst t'. right. split.
      * intros t2 h2 F2. apply (proj2 (registers_first alnum c before n (t2, h2))) in F2. rewrite Ef in F2. injection F2 as <- _. reflexivity.
      * destruct (str_eqb h (me_desc m)); cbn [negb] in E; destruct (add_metric _ _ _ _ _) as [fs0|] eqn:Ea in E; try discriminate; cbn in E; injection E as <- _; (split; [exact (proj1 (C63_samples _ _ _ _ _ _ Ea))|eauto]).
    + left. injection E as <- _. split; [|reflexivity]. exists t', h. split; [exact F|]. intros ->. destruct t; discriminate.
  - right. split; [intros t2 h2 F2; apply (proj2 (registers_first alnum c before n (t2, h2))) in F2; congruence|].
    destruct (add_metric _ _ _ _ _) as [fs0|] eqn:Ea in E; try discriminate. cbn in E. injection E as <- _. split; [exact (proj1 (C63_samples _ _ _ _ _ _ Ea))|eauto].
Qed.
Print Assumptions C80_dropped_iff_type_conflict.

(** The names the exporter uses itself are not protected: a counter a user calls
    target_info (with counter suffixes off) is exported beside the exporter's own gauge. *)
Definition ex_counter : metric := mk_metric (of_string "target_info") (of_string "mine") [] (DU64 (MSum [mk_np [] 1%Z []] 0%Z 0%Z Cumulative true)).
Theorem C127_own_names_refuted : exists c l fs f f', scrapes is_alnum (fun _ => []) c l [] = Some [fs] /\ In f fs /\ In f' fs /\ f_name f = f_name f' /\ f_type f <> f_type f'.
Proof.
  exists (mk_cfg false true false false None None), [([(of_string "service.name", VString [])], [(mk_scope [] None None [], [ex_counter])])].
  eexists. eexists. eexists. split; [reflexivity|]. split; [left; reflexivity|]. split; [right; left; reflexivity|]. split; [vm_compute; reflexivity|intros E; vm_compute in E; discriminate].
Qed.
Print Assumptions C127_own_names_refuted.

(** With the scope labels off, equal instruments of two scopes become the same series
    twice in one scrape. *)
Definition ex_gauge (v : Z) : metric := mk_metric (of_string "g") [] [] (DU64 (MGauge [mk_np [] v []] None 0%Z)).
Theorem C127_one_series_refuted : exists c l fs f f', scrapes is_alnum (fun _ => []) c l [] = Some [fs] /\ nth_error fs 0 = Some f /\ nth_error fs 1 = Some f' /\ f_name f = f_name f' /\ f_labels f = f_labels f' /\ f_value f <> f_value f'.
Proof.
  exists (mk_cfg false false true true None None), [([], [(mk_scope [97] None None [], [ex_gauge 1]); (mk_scope [98] None None [], [ex_gauge 2])])].
  do 3 eexists. split; [reflexivity|]. split; [reflexivity|]. split; [reflexivity|]. split; [vm_compute; reflexivity|]. split; [vm_compute; reflexivity|].
  intros E. apply (f_equal (fun v => match v with FGauge f => f64_bits f | _ => 0%Z end)) in E. vm_compute in E. discriminate.
Qed.
Print Assumptions C127_one_series_refuted.

(** A point with the same label twice: an attribute with the name of a scope label. *)
Theorem C119_labels_unique_refuted : exists c l fs f, scrapes is_alnum (fun _ => []) c l [] = Some [fs] /\ In f fs /\ ~ NoDup (map fst (f_labels f)).
Proof.
  exists (mk_cfg false false false true None None), [([], [(mk_scope [97] None None [], [mk_metric [103] [] [] (DU64 (MGauge [mk_np [(of_string "otel.scope.name", VString [])] 1%Z []] None 0%Z))])])].
  do 2 eexists. split; [reflexivity|]. split; [left; reflexivity|]. intros H. vm_compute in H. inversion H as [|? ? H1 _]; subst. apply H1. left. reflexivity.
Qed.
Print Assumptions C119_labels_unique_refuted.

(** Switching the scope labels off also drops the selected resource labels from every
    metric: all points then have their own attributes' labels only. *)
Theorem C63_resource_labels : forall alnum show c res sms s fs s', collect alnum show c res sms s = Some (fs, s') -> disable_scope_info c = true ->
  forall f, In f fs -> ~ info f -> exists kvs, f_labels f = get_attrs show kvs [].
Proof.
  intros alnum show c res sms s fs s' E Hd f Hf Hi. unfold collect in E. destruct (scopes_loop _ _ _ _ sms s) as [[fs1 s1]|] eqn:E1; [|discriminate]. cbn in E. injection E as <- <-.
  apply in_app_iff in Hf. destruct Hf as [Hf|Hf].
  { exfalso. apply Hi. left. destruct (disable_target_info c); [destruct Hf|]. destruct res; [destruct Hf|]. destruct Hf as [<-|[]]. reflexivity. }
  revert s fs1 s1 E1 Hf. induction sms as [|[sc ms] sms IH]; intros s fs1 s1 E1 Hf; cbn [scopes_loop] in E1; [injection E1 as <- <-; destruct Hf|].
  rewrite Hd in E1. cbv zeta in E1. destruct (metrics_loop _ _ _ _ ms s) as [[fs2 s2]|] eqn:E2; [|discriminate]. destruct (scopes_loop _ _ _ _ sms s2) as [[fs3 s3]|] eqn:E3; [|discriminate].
  cbn in E1. injection E1 as <- <-. apply in_app_iff in Hf. destruct Hf as [Hf|Hf]; [|eapply IH; eassumption]. clear IH E3.
  revert s fs2 s2 E2 Hf. induction ms as [|m ms IHm]; intros s fs2 s2 E2 Hf; cbn [metrics_loop] in E2; [injection E2 as <- <-; destruct Hf|].
  destruct (one_metric _ _ _ _ m s) as [[fs4 s4]|] eqn:E4; [|discriminate]. destruct (metrics_loop _ _ _ _ ms s4) as [[fs5 s5]|] eqn:E5; [|discriminate]. cbn in E2. injection E2 as <- <-.
  apply in_app_iff in Hf. destruct Hf as [Hf|Hf]; [|eapply IHm; eassumption]. unfold one_metric in E4. destruct (type_and_name alnum c m) as [[t n]|]; [|injection E4 as <- <-; destruct Hf].
  destruct (validate n (me_desc m) t s) as [[[] h] s6]; [injection E4 as <- <-; destruct Hf|]. destruct (add_metric _ _ _ _ _) as [fs7|] eqn:Ea in E4; [|discriminate]. cbn in E4. injection E4 as <- <-.
  apply C63_samples in Ea. destruct Ea as [L1 L2]. apply In_nth_error in Hf. destruct Hf as (i & Hi'). destruct (L2 i) as (ls & t0 & v & H1 & H2); [rewrite <- L1; apply nth_error_Some; congruence|].
  rewrite H1 in Hi'. injection Hi' as <-. cbn [f_labels]. inversion H2; eauto.
Qed.
Print Assumptions C63_resource_labels.

(** Which resource attributes a selector picks: none, all, or those with a listed key. *)
Definition selects (sel : option (option (list (list N)))) (k : list N) : Prop := match sel with None => False | Some None => True | Some (Some keys) => In k keys end.
(** What the scope's labels are. *)
Definition scope_labels (sc : scope) (ls : list (list N * list N)) : Prop :=
  match sc_version sc with
  | None => ls = [(of_string "otel_scope_name", sc_name sc)]
  | Some v => ls = [(of_string "otel_scope_name", sc_name sc); (of_string "otel_scope_version", v)]
  end.
(** With the scope labels on, a point has the labels of its own attributes, then those of
    its scope, then those of exactly the selected resource attributes. *)
Theorem C63_selected_resource_labels : forall alnum show c res sms s fs s', collect alnum show c res sms s = Some (fs, s') -> disable_scope_info c = false ->
  exists picked, (forall kv, In kv picked <-> In kv res /\ selects (selector c) (fst kv)) /\
  forall f, In f fs -> ~ info f -> exists kvs sc ms ls, In (sc, ms) sms /\ scope_labels sc ls /\
    f_labels f = get_attrs show kvs (ls ++ get_attrs show picked []).
Proof.
  intros alnum show c res sms s fs s' E Hd.
  assert (exists kept : list attr, (forall kv, In kv kept <-> In kv res /\ selects (selector c) (fst kv)) /\ select show (selector c) res = get_attrs show kept []) as (kept & Hkept & Es).
  { unfold select, selects. destruct (selector c) as [[keys|]|].
    - eexists. split; [|reflexivity]. intros kv. rewrite filter_In, existsb_exists. split.
      + intros (H1 & k & H2 & H3). apply str_eqb_eq in H3. rewrite H3. auto.
      + intros (H1 & H2). split; [exact H1|]. exists (fst kv). split; [exact H2|]. apply str_eqb_refl.
    - exists res. split; [tauto|reflexivity].
    - exists []. split; [intros kv; cbn; tauto|reflexivity]. }
  exists kept. split; [exact Hkept|]. clear Hkept.
  intros f Hf Hi. unfold collect in E. destruct (scopes_loop _ _ _ _ sms s) as [[fs1 s1]|] eqn:E1; [|discriminate]. cbn in E. injection E as <- <-.
  apply in_app_iff in Hf. destruct Hf as [Hf|Hf].
  { exfalso. apply Hi. left. destruct (disable_target_info c); [destruct Hf|]. destruct res; [destruct Hf|]. destruct Hf as [<-|[]]. reflexivity. }
  rewrite Es in E1. clear Es.
  revert s fs1 s1 E1 Hf. induction sms as [|[sc ms] sms IH]; intros s fs1 s1 E1 Hf; cbn [scopes_loop] in E1; [injection E1 as <- <-; destruct Hf|].
  rewrite Hd in E1. cbv zeta in E1. destruct (metrics_loop _ _ _ _ ms s) as [[fs2 s2]|] eqn:E2; [|discriminate]. destruct (scopes_loop _ _ _ _ sms s2) as [[fs3 s3]|] eqn:E3; [|discriminate].
  cbn [option_map fst snd] in E1. injection E1 as <- <-. rewrite !in_app_iff in Hf. destruct Hf as [Hf|[Hf|Hf]].
  { exfalso. apply Hi. right. destruct (sc_attrs sc); [destruct Hf|]. destruct Hf as [<-|[]]. reflexivity. }
  2: { destruct (IH s2 fs3 s3 E3 Hf) as (kvs & sc' & ms' & ls & H1 & H2). exists kvs, sc', ms', ls. split; [right; exact H1|exact H2]. }
  clear IH E3. assert (exists kvs, f_labels f = get_attrs show kvs (scope_name_labels sc ++ get_attrs show kept [])) as [kvs Hk].
  { revert s fs2 s2 E2 Hf. induction ms as [|m ms IHm]; intros s fs2 s2 E2 Hf; cbn [metrics_loop] in E2; [injection E2 as <- <-; destruct Hf|].
    destruct (one_metric _ _ _ _ m s) as [[fs4 s4]|] eqn:E4; [|discriminate]. destruct (metrics_loop _ _ _ _ ms s4) as [[fs5 s5]|] eqn:E5; [|discriminate]. cbn in E2. injection E2 as <- <-.
    apply in_app_iff in Hf. destruct Hf as [Hf|Hf]; [|eapply IHm; eassumption]. unfold one_metric in E4. destruct (type_and_name alnum c m) as [[t n]|]; [|injection E4 as <- <-; destruct Hf].
    destruct (validate n (me_desc m) t s) as [[[] h] s6]; [injection E4 as <- <-; destruct Hf|]. destruct (add_metric _ _ _ _ _) as [fs7|] eqn:Ea in E4; [|discriminate]. cbn in E4. injection E4 as <- <-.
    apply C63_samples in Ea. destruct Ea as [L1 L2]. apply In_nth_error in Hf. destruct Hf as (i & Hi'). destruct (L2 i) as (ls & t0 & v & H1 & H2); [rewrite <- L1; apply nth_error_Some; congruence|].
    rewrite H1 in Hi'. injection Hi' as <-. cbn [f_labels]. inversion H2; eauto. }
  exists kvs, sc, ms, (scope_name_labels sc). split; [left; reflexivity|]. split; [|exact Hk]. unfold scope_labels, scope_name_labels. destruct (sc_version sc); reflexivity.
Qed.
Print Assumptions C63_selected_resource_labels.

(** A scrape of two scopes and two conflicting instruments, with everything on. *)
Example C63_C80_nonvacuous :
  let hist := mk_metric (of_string "2lat.x") (of_string "d") (of_string "ms") (DF64 (MHist [mk_hp [(of_string "a.b", VBool true); (of_string "a/b", VBool false)] 6 [f64_of_Z 1; f64_of_Z 5] [1; 2; 3] None None (f64_of_Z 20) []] 0%Z 0%Z Cumulative)) in
  let cnt d := mk_metric (of_string "hits") d [] (DU64 (MSum [mk_np [] 3%Z []] 0%Z 0%Z Cumulative true)) in
  let show v := match v with VBool true => of_string "true" | _ => of_string "false" end in
  option_map (map (map (fun f => (f_name f, f_help f, f_type f, f_labels f))))
    (scrapes is_alnum show (mk_cfg false false false false (Some (with_namespace (of_string "app"))) None)
       [([], [(mk_scope (of_string "s") (Some (of_string "1")) None [], [hist; cnt (of_string "x")])]); ([], [(mk_scope (of_string "s") None None [], [cnt (of_string "y")])])] []) =
  Some [[(of_string "app__2lat_x_milliseconds", of_string "d", HISTOGRAM, [(of_string "a_b", of_string "false;true"); (of_string "otel_scope_name", of_string "s"); (of_string "otel_scope_version", of_string "1")]);
         (of_string "app_hits_total", of_string "x", COUNTER, [(of_string "otel_scope_name", of_string "s"); (of_string "otel_scope_version", of_string "1")])];
        [(of_string "app_hits_total", of_string "x", COUNTER, [(of_string "otel_scope_name", of_string "s")])]].
Proof. vm_compute. reflexivity. Qed.
