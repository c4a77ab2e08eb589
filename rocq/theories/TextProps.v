(** C166-C169: the text of a value (opentelemetry/src/common.rs:168-198, 315-330, 377-389,
    modelled in ZipkinModel.v) and what it means for Prometheus labels. *)
From Coq Require Import String List Bool NArith ZArith Lia Permutation Sorting.Sorted.
From Verif Require Import Str StrProofs F64 AttrModel AttrProofs KvModel OtlpModel JsonModel PromModel.
From Flocq Require IEEE754.Bits.
From Verif Require InstrModel JsonProofs PromProps ZipkinModel.
Import ListNotations.
Local Open Scope N_scope.
Notation show_value := ZipkinModel.show_value.

(** ** Specification *)
Definition same_type (v w : value) : Prop :=
  match v, w with
  | VBool _, VBool _ | VI64 _, VI64 _ | VF64 _, VF64 _ | VString _, VString _
  | VArray (ABool _), VArray (ABool _) | VArray (AI64 _), VArray (AI64 _) | VArray (AF64 _), VArray (AF64 _) | VArray (AString _), VArray (AString _) => True
  | _, _ => False
  end.
Definition i64 (z : Z) : Prop := (- 2 ^ 63 <= z < 2 ^ 63)%Z.
(** Values of Rust's types that hold no NaN, nor strings with a quote inside an array. *)
Definition plain_text (v : value) : Prop :=
  match v with
  | VI64 z => i64 z
  | VF64 f => f64_is_nan f = false
  | VArray (AI64 l) => Forall i64 l
  | VArray (AF64 l) => Forall (fun f => f64_is_nan f = false) l
  | VArray (AString l) => Forall (fun s => ~ In 34 s) l
  | _ => True
  end.
(** What is needed of f64's Display: a text without commas and brackets, which is
    different for different numbers. *)
Definition float_text (show_f64 : f64 -> str) : Prop :=
  (forall f, show_f64 f <> [] /\ ~ In 44 (show_f64 f) /\ ~ In 93 (show_f64 f)) /\
  forall f g, f64_is_nan f = false -> f64_is_nan g = false -> show_f64 f = show_f64 g -> f = g.

(** ** Lists *)
Definition stop (r : str) : Prop := exists c r', r = c :: r' /\ (c = 44 \/ c = 93).
Section lists.
Context {A : Type} (show : A -> str) (good : A -> Prop).
Context (Hd : forall x y r r', good x -> good y -> stop r -> stop r' -> show x ++ r = show y ++ r' -> x = y /\ r = r').
Context (Hn : forall x, good x -> exists c r, show x = c :: r /\ c <> 93).
Lemma tail_inj : forall l l', Forall good l -> Forall good l' -> ZipkinModel.show_tail show l ++ [93] = ZipkinModel.show_tail show l' ++ [93] -> l = l'.
Proof using Hd.
  assert (S : forall l, stop (ZipkinModel.show_tail show l ++ [93])) by (intros [|x l]; [exists 93, []; auto|eexists 44, _; split; [reflexivity|auto]]).
  induction l as [|x l IH]; intros [|y l'] H H' E; [reflexivity|discriminate|discriminate|]. cbn [ZipkinModel.show_tail List.app] in E. injection E as E. rewrite <- !app_assoc in E.
  inversion H; inversion H'; subst. destruct (Hd x y _ _ ltac:(assumption) ltac:(assumption) (S l) (S l') E) as [-> E']. f_equal. apply IH; assumption.
Qed.
Lemma list_inj l l' : Forall good l -> Forall good l' -> ZipkinModel.show_list show l = ZipkinModel.show_list show l' -> l = l'.
Proof using Hd Hn.
  assert (S : forall l, stop (ZipkinModel.show_tail show l ++ [93])) by (intros [|x l0]; [exists 93, []; auto|eexists 44, _; split; [reflexivity|auto]]).
  intros H H' E. unfold ZipkinModel.show_list in E. injection E as E. destruct l as [|x l], l' as [|y l']; [reflexivity|..].
  - inversion H'; subst. destruct (Hn y) as (c & r & Ey & Hc); [assumption|]. rewrite Ey in E. cbn [List.app] in E. injection E as E _. congruence.
  - inversion H; subst. destruct (Hn x) as (c & r & Ey & Hc); [assumption|]. rewrite Ey in E. cbn [List.app] in E. injection E as E _. congruence.
  - rewrite <- !app_assoc in E. inversion H; inversion H'; subst.
    destruct (Hd x y _ _ ltac:(assumption) ltac:(assumption) (S l) (S l') E) as [-> E']. f_equal. apply tail_inj; assumption.
Qed.
End lists.
(** Texts without commas and brackets end at the first one. *)
Lemma split_stop (a b r r' : str) : ~ In 44 a -> ~ In 93 a -> ~ In 44 b -> ~ In 93 b -> stop r -> stop r' -> a ++ r = b ++ r' -> a = b /\ r = r'.
Proof.
  revert b. induction a as [|c a IH]; intros [|d b] H1 H2 H3 H4 S S' E; cbn [List.app] in E.
  - auto.
  - exfalso. destruct S as (c & r1 & -> & Hc). injection E as -> _. destruct Hc as [-> | ->]; [apply H3|apply H4]; left; reflexivity.
  - exfalso. destruct S' as (d & r1 & -> & Hc). injection E as -> _. destruct Hc as [-> | ->]; [apply H1|apply H2]; left; reflexivity.
  - injection E as -> E. cbn [In] in *. destruct (IH b) as [-> ->]; tauto.
Qed.
Lemma split_quote (a b r r' : str) : ~ In 34 a -> ~ In 34 b -> a ++ 34 :: r = b ++ 34 :: r' -> a = b /\ r = r'.
Proof.
  revert b. induction a as [|c a IH]; intros [|d b] H1 H2 E; cbn [List.app] in E; injection E.
  - auto.
  - intros _ E'. exfalso. apply H2. left. symmetry. exact E'.
  - intros _ E'. exfalso. apply H1. left. exact E'.
  - intros E' ->. cbn [In] in *. destruct (IH b) as [-> ->]; tauto.
Qed.
Lemma dec_digits n : forall f, Forall (fun c => 48 <= c <= 57) (dec_of f n).
Proof.
  intros f. revert n. induction f as [|f IH]; intros n; cbn [dec_of]; [constructor|]. destruct (N.ltb_spec n 10).
  - constructor; [lia|constructor].
  - apply Forall_app. split; [apply IH|]. constructor; [|constructor]. pose proof (N.mod_lt n 10). lia.
Qed.
Lemma dec_Z_chars z c : In c (dec_Z z) -> c = 45 \/ 48 <= c <= 57.
Proof.
  unfold dec_Z, dec_N. destruct (z <? 0)%Z; intros H; [destruct H as [<-|H]; [auto|]|]; right; eapply (proj1 (Forall_forall _ _) (dec_digits _ _)), H.
Qed.
Lemma dec_Z_first z : i64 z -> dec_Z z <> [].
Proof. intros H E. pose proof (JsonProofs.parse_i64_dec z H) as P. rewrite E in P. discriminate. Qed.
Lemma dec_Z_inj x y : i64 x -> i64 y -> dec_Z x = dec_Z y -> x = y.
Proof. intros Hx Hy E. pose proof (JsonProofs.parse_i64_dec x Hx) as P. rewrite E, (JsonProofs.parse_i64_dec y Hy) in P. injection P as ->. reflexivity. Qed.

(** Values of one type are told apart by their text. *)
Theorem C166_text_determines_value : forall show_f64 v w, float_text show_f64 -> same_type v w -> plain_text v -> plain_text w ->
  show_value show_f64 v = show_value show_f64 w -> v = w.
Proof.
  intros show_f64 v w [F1 F2] T Hv Hw E.
  destruct v as [b|z|f|s|[l|l|l|l]], w as [b'|z'|f'|s'|[l'|l'|l'|l']]; try destruct T; cbn [ZipkinModel.show_value plain_text ZipkinModel.show_array] in *; do 2 try f_equal.
  - destruct b, b'; try reflexivity; discriminate E.
  - apply dec_Z_inj; assumption.
  - apply F2; assumption.
  - exact E.
  - revert E. apply (list_inj ZipkinModel.show_bool (fun _ => True)); [..|apply Forall_forall; auto|apply Forall_forall; auto].
    + intros x y r r' _ _ S S' E. assert (C : forall b : bool, ~ In 44 (ZipkinModel.show_bool b) /\ ~ In 93 (ZipkinModel.show_bool b)).
      { intros [|]; split; cbn; intros H; repeat (destruct H as [H|H]; [discriminate H|]); exact H. }
      destruct (split_stop _ _ r r' (proj1 (C x)) (proj2 (C x)) (proj1 (C y)) (proj2 (C y)) S S' E) as [E' ->]. split; [|reflexivity]. destruct x, y; try reflexivity; discriminate E'.
    + intros [|] _; eexists _, _; (split; [reflexivity|discriminate]).
  - revert E. apply (list_inj dec_Z i64); [..|exact Hv|exact Hw].
    + intros x y r r' Hx Hy S S' E. assert (C : forall z, ~ In 44 (dec_Z z) /\ ~ In 93 (dec_Z z)) by (intros z; split; intros H; apply dec_Z_chars in H; lia).
      destruct (split_stop _ _ r r' (proj1 (C x)) (proj2 (C x)) (proj1 (C y)) (proj2 (C y)) S S' E) as [E' ->]. split; [|reflexivity]. apply dec_Z_inj; assumption.
    + intros z Hz. destruct (dec_Z z) as [|c r] eqn:Ez; [destruct (dec_Z_first z Hz Ez)|]. exists c, r. split; [reflexivity|].
      assert (H : In c (dec_Z z)) by (rewrite Ez; left; reflexivity). apply dec_Z_chars in H. lia.
  - revert E. apply (list_inj show_f64 (fun f => f64_is_nan f = false)); [..|exact Hv|exact Hw].
    + intros x y r r' Hx Hy S S' E. destruct (F1 x) as (_ & X1 & X2), (F1 y) as (_ & Y1 & Y2).
      destruct (split_stop _ _ r r' X1 X2 Y1 Y2 S S' E) as [E' ->]. split; [|reflexivity]. apply F2; assumption.
    + intros f _. destruct (F1 f) as (X & _ & Y). destruct (show_f64 f) as [|c r]; [contradiction|]. exists c, r. split; [reflexivity|]. intros ->. apply Y. left. reflexivity.
  - revert E. apply (list_inj ZipkinModel.quoted (fun s => ~ In 34 s)); [..|exact Hv|exact Hw].
    + intros x y r r' Hx Hy S S' E. unfold ZipkinModel.quoted in E. cbn [List.app] in E. injection E as E. rewrite <- !app_assoc in E. cbn [List.app] in E.
      apply split_quote in E; assumption.
    + intros s _. exists 34, (s ++ [34]). split; [reflexivity|discriminate].
Qed.
Print Assumptions C166_text_determines_value.
(** Not so with quotes: the strings of an array are not escaped. *)
Theorem C167_arrays_of_any_strings_refuted : forall show_f64,
  ~ forall l l', show_value show_f64 (VArray (AString l)) = show_value show_f64 (VArray (AString l')) -> l = l'.
Proof.
  intros show_f64 H. specialize (H [of_string "a"; of_string "b"] [of_string "a" ++ [34; 44; 34] ++ of_string "b"]). discriminate H. reflexivity.
Qed.
Print Assumptions C167_arrays_of_any_strings_refuted.

(** ** Prometheus series *)
(** Attributes with distinct keys are recovered from the labels, as long as no two keys
    of the two lists have the same label name and the text of the values tells them apart. *)
Lemma labels_in show kvs extra k v : NoDup (map fst kvs) ->
  (forall k', In k' (map fst kvs) -> sanitize_kv k' = sanitize_kv k -> k' = k) ->
  In (k, v) kvs -> exists ls, get_attrs show kvs extra = ls ++ extra /\ In (sanitize_kv k, show v) ls.
Proof.
  intros Hn Hk Hin. destruct (PromProps.C63_labels show kvs extra) as (ls & E & _ & L1 & L2). exists ls. split; [exact E|].
  assert (K : In (sanitize_kv k) (map fst ls)) by (apply L1; exists (k, v); auto). apply in_map_iff in K. destruct K as ([k' t] & Ek & K). cbn in Ek. subst k'.
  destruct (L2 _ _ K) as (vals & -> & _ & P).
  assert (Ef : filter (fun kv => str_eqb (sanitize_kv k) (sanitize_kv (fst kv))) kvs = [(k, v)]).
  { clear - Hn Hk Hin. induction kvs as [|[k1 v1] kvs IH]; [destruct Hin|]. cbn [filter fst]. cbn [map fst] in Hn. inversion Hn as [|? ? N1 N2]; subst.
    assert (Z : ~ In k (map fst kvs) -> filter (fun kv => str_eqb (sanitize_kv k) (sanitize_kv (fst kv))) kvs = []).
    { clear - Hk. intros Z. induction kvs as [|[k2 v2] kvs IH]; [reflexivity|]. cbn [filter fst]. destruct (str_eqb_spec (sanitize_kv k) (sanitize_kv k2)) as [E|E].
      - exfalso. apply Z. left. cbn. apply Hk; [right; left; reflexivity|symmetry; exact E].
      - apply IH; [|intros Y; apply Z; right; exact Y]. intros k' [H|H]; apply Hk; [left; exact H|right; right; exact H]. }
    destruct Hin as [E|Hin].
    - injection E as -> ->. destruct (str_eqb_spec (sanitize_kv k) (sanitize_kv k)) as [_|X]; [|contradiction]. f_equal. apply Z, N1.
    - destruct (str_eqb_spec (sanitize_kv k) (sanitize_kv k1)) as [E|E].
      + exfalso. assert (k1 = k) by (apply Hk; [left; reflexivity|symmetry; exact E]). subst k1. apply N1. apply (in_map fst) in Hin. exact Hin.
      + apply IH; [exact N2| |exact Hin]. intros k' H. apply Hk. right. exact H. }
  rewrite Ef in P. apply Permutation_sym, Permutation_length_1_inv in P. subst vals. exact K.
Qed.
Theorem C168_labels_determine_attributes : forall show a b extra, NoDup (map fst a) -> NoDup (map fst b) ->
  (forall k k', In k (map fst (a ++ b)) -> In k' (map fst (a ++ b)) -> sanitize_kv k = sanitize_kv k' -> k = k') ->
  (forall k v w, In (k, v) a -> In (k, w) b -> show v = show w -> v = w) ->
  get_attrs show a extra = get_attrs show b extra -> forall x, In x a <-> In x b.
Proof.
  assert (G : forall show a b extra, NoDup (map fst a) -> NoDup (map fst b) ->
    (forall k k', In k (map fst (a ++ b)) -> In k' (map fst (a ++ b)) -> sanitize_kv k = sanitize_kv k' -> k = k') ->
    (forall k v w, In (k, v) a -> In (k, w) b -> show v = show w -> v = w) ->
    get_attrs show a extra = get_attrs show b extra -> forall x, In x a -> In x b).
  { intros show a b extra Na Nb Hk Hv E [k v] Hx.
    assert (Ia : forall k', In k' (map fst a) -> In k' (map fst (a ++ b))) by (intros; rewrite map_app; apply in_or_app; auto).
    assert (Ib : forall k', In k' (map fst b) -> In k' (map fst (a ++ b))) by (intros; rewrite map_app; apply in_or_app; auto).
    assert (Kx : In k (map fst a)) by (apply (in_map fst) in Hx; exact Hx).
    destruct (labels_in show a extra k v Na) as (la & Ea & La); [intros k' H1 H2; apply Hk; auto|exact Hx|].
    destruct (PromProps.C63_labels show b extra) as (lb & Eb & _ & B1 & _). rewrite Ea, Eb in E. apply app_inv_tail in E. subst lb.
    destruct (proj1 (B1 (sanitize_kv k)) ltac:(apply in_map_iff; eexists; split; [|exact La]; reflexivity)) as ([k1 w] & Hw & Ek). cbn in Ek.
    assert (k1 = k) by (apply Hk; [apply Ib; apply (in_map fst) in Hw; exact Hw|auto|exact Ek]). subst k1.
    destruct (labels_in show b extra k w Nb) as (lb & Eb' & Lb); [intros k' H1 H2; apply Hk; auto|exact Hw|]. rewrite Eb in Eb'. apply app_inv_tail in Eb'. subst lb.
    enough (v = w) by (subst w; exact Hw). apply (Hv k v w Hx Hw).
    assert (U : forall t t', In (sanitize_kv k, t) la -> In (sanitize_kv k, t') la -> t = t').
    { destruct (PromProps.C63_labels show a extra) as (la' & Ea' & S & _). rewrite Ea in Ea'. apply app_inv_tail in Ea'. subst la'. clear - S.
      induction S as [|[k1 t1] l S IH F]; intros t t' H H'; [destruct H|]. rewrite Forall_forall in F.
      destruct H as [H|H], H' as [H'|H'].
      - congruence.
      - injection H as -> _. specialize (F _ H'). cbn in F. rewrite str_cmp_refl in F. discriminate.
      - injection H' as -> _. specialize (F _ H). cbn in F. rewrite str_cmp_refl in F. discriminate.
      - apply IH; assumption. }
    apply U; assumption. }
  intros show a b extra Na Nb Hk Hv E x. split; [apply (G show a b extra Na Nb Hk Hv E)|]. apply (G show b a extra Nb Na).
  - intros k k' H H'. apply Hk; rewrite map_app in *; apply in_or_app; [apply in_app_or in H; tauto|apply in_app_or in H'; tauto].
  - intros k v w H1 H2 E1. symmetry. eapply Hv; eauto.
  - symmetry. exact E.
Qed.
Print Assumptions C168_labels_determine_attributes.

(** The attributes of the points of a metric. *)
Definition data_attrs {T} (d : mdata T) : list (list attr) :=
  match d with MGauge ps _ _ => map n_attrs ps | MSum ps _ _ _ _ => map n_attrs ps | MHist ps _ _ _ => map h_attrs ps | MExpo _ _ _ _ => [] end.
Definition points_attrs (d : amdata) : list (list attr) := match d with DF64 d => data_attrs d | DU64 d => data_attrs d | DI64 d => data_attrs d end.
Lemma sample_labels show extra d i labels t v : PromProps.sample_of show extra d i labels t v -> exists a, nth_error (points_attrs d) i = Some a /\ labels = get_attrs show a extra.
Proof. intros H. destruct H; cbn [points_attrs data_attrs]; eexists; (split; [apply map_nth_error; eassumption|reflexivity]). Qed.
(** Points of a metric that have keys of letters, digits, colons and underscores, and
    one type of plain values under each key, are different series when their attributes differ. *)
Definition label_key (k : str) : Prop := forall c, In c k -> InstrModel.is_alnum c = true \/ c = 58 \/ c = 95.
Lemma label_key_kept k : label_key k -> sanitize_kv k = k.
Proof.
  intros H. unfold sanitize_kv. rewrite <- (map_id k) at 2. apply map_ext_in. intros c Hc. destruct (H c Hc) as [-> | [-> | ->]]; [reflexivity|..].
  - rewrite N.eqb_refl, orb_true_r. reflexivity.
  - reflexivity.
Qed.
Theorem C168_points_are_series : forall show_f64 name help extra d fs i j a b f g, float_text show_f64 -> add_metric (show_value show_f64) name help extra d = Some fs ->
  nth_error (points_attrs d) i = Some a -> nth_error (points_attrs d) j = Some b -> nth_error fs i = Some f -> nth_error fs j = Some g ->
  NoDup (map fst a) -> NoDup (map fst b) -> (forall k, In k (map fst (a ++ b)) -> label_key k) ->
  (forall k v w, In (k, v) a -> In (k, w) b -> same_type v w /\ plain_text v /\ plain_text w) ->
  f_labels f = f_labels g -> forall x, In x a <-> In x b.
Proof.
  intros show_f64 name help extra d fs i j a b f g Hf E Ea Eb Ef Eg Na Nb Hk Hv El.
  destruct (PromProps.C63_samples _ _ _ _ _ _ E) as [L S].
  assert (G : forall i a f, nth_error (points_attrs d) i = Some a -> nth_error fs i = Some f -> f_labels f = get_attrs (show_value show_f64) a extra).
  { intros i0 a0 f0 Ha Hf0. destruct (S i0) as (ls & t & v & E1 & E2). { rewrite <- L. apply nth_error_Some. congruence. }
    apply sample_labels in E2. destruct E2 as (a1 & A1 & ->). rewrite Hf0 in E1. injection E1 as ->. rewrite Ha in A1. injection A1 as <-. reflexivity. }
  rewrite (G _ _ _ Ea Ef), (G _ _ _ Eb Eg) in El. revert El. apply C168_labels_determine_attributes; [exact Na|exact Nb|..].
  - intros k k' H H' Es. rewrite (label_key_kept k), (label_key_kept k') in Es by (apply Hk; assumption). exact Es.
  - intros k v w H1 H2. destruct (Hv k v w H1 H2) as (T & P1 & P2). apply C166_text_determines_value; assumption.
Qed.
Print Assumptions C168_points_are_series.

(** Without the conditions: two points of one metric, with different attributes, are
    the same series twice, because the number 1 and the text "1" look the same, or because
    a.b and a_b become one label whose values are sorted. *)
Definition two_points (a b : list attr) : amdata := DU64 (MSum [mk_np a 1%Z []; mk_np b 2%Z []] 0%Z 0%Z Cumulative true).
Theorem C169_types_refuted : forall show_f64, exists k v w,
  v <> w /\ NoDup (map fst [(k, v)]) /\ label_key k /\
  exists f g, add_metric (show_value show_f64) (of_string "m") [] [] (two_points [(k, v)] [(k, w)]) = Some [f; g] /\ f_name f = f_name g /\ f_labels f = f_labels g.
Proof.
  intros show_f64. exists (of_string "k"), (VI64 1), (VString (of_string "1")). split; [discriminate|]. split; [repeat constructor; intros []|].
  split; [intros c [<-|[]]; left; reflexivity|]. do 2 eexists. split; [reflexivity|]. split; reflexivity.
Qed.
Print Assumptions C169_types_refuted.
Theorem C169_keys_refuted : forall show_f64, exists k k' v w, k <> k' /\ v <> w /\ same_type v w /\ plain_text v /\ plain_text w /\
  exists f g, add_metric (show_value show_f64) (of_string "m") [] [] (two_points [(k, v); (k', w)] [(k, w); (k', v)]) = Some [f; g] /\ f_name f = f_name g /\ f_labels f = f_labels g.
Proof.
  intros show_f64. exists (of_string "a.b"), (of_string "a_b"), (VString (of_string "x")), (VString (of_string "y")). split; [discriminate|]. split; [discriminate|].
  do 3 (split; [exact I|]). do 2 eexists. split; [reflexivity|]. split; vm_compute; reflexivity.
Qed.
Print Assumptions C169_keys_refuted.

(** Cases: numbers with signs in an array, and two points that differ in one value. *)
Example C166_nonvacuous : let show := show_value (fun _ => of_string "0.5") in
  show (VArray (AI64 [-1; 20]%Z)) = of_string "[-1,20]" /\ plain_text (VArray (AI64 [-1; 20]%Z)) /\
  show (VArray (AString [of_string "a,b"; []])) = [91; 34] ++ of_string "a,b" ++ [34; 44; 34; 34; 93] /\ plain_text (VArray (AString [of_string "a,b"; []])).
Proof.
  cbv zeta. split; [reflexivity|]. split; [repeat constructor; unfold i64; lia|]. split; [reflexivity|].
  constructor; [|constructor; [intros []|constructor]]. intros H. vm_compute in H. repeat (destruct H as [H|H]; [discriminate H|]). destruct H.
Qed.
Example C168_nonvacuous : let a := [(of_string "k", VI64 1); (of_string "l", VBool true)] in let b := [(of_string "l", VBool false); (of_string "k", VI64 1)] in
  (exists fs, add_metric (show_value (fun _ => of_string "0.5")) (of_string "m") [] [] (two_points a b) = Some fs /\
     map f_labels fs = [[(of_string "k", of_string "1"); (of_string "l", of_string "true")]; [(of_string "k", of_string "1"); (of_string "l", of_string "false")]]) /\
  (forall k, In k (map fst (a ++ b)) -> label_key k) /\ (forall k v w, In (k, v) a -> In (k, w) b -> same_type v w /\ plain_text v /\ plain_text w).
Proof.
  cbv zeta. split; [eexists; split; reflexivity|]. split.
  - intros k H. cbn in H. repeat (destruct H as [<-|H]; [intros c [<-|[]]; left; reflexivity|]). destruct H.
  - intros k v w H H'. cbn in H, H'. destruct H as [H|[H|[]]], H' as [H'|[H'|[]]]; injection H as <- <-; try discriminate H'; injection H' as <-; repeat split; try exact I; cbn; unfold i64; lia.
Qed.
(** There are such texts of floats. *)
Example C166_float_text : float_text (fun f => dec_Z (f64_bits f - 2 ^ 63)).
Proof.
  assert (R : forall f, i64 (f64_bits f - 2 ^ 63)).
  { intros f. pose proof (Bits.bits_of_binary_float_range 52 11 eq_refl eq_refl f) as H. change (52 + 11 + 1)%Z with 64%Z in H. unfold i64, f64_bits, Bits.bits_of_b64. change (2 ^ 64)%Z with (2 ^ 63 + 2 ^ 63)%Z in H. lia. }
  split.
  - intros f. split; [apply dec_Z_first, R|]. split; intros H; apply dec_Z_chars in H; lia.
  - intros f g _ _ E. apply dec_Z_inj in E; [|apply R|apply R]. assert (E' : f64_bits f = f64_bits g) by lia.
    rewrite <- (Bits.binary_float_of_bits_of_binary_float 52 11 eq_refl eq_refl eq_refl f), <- (Bits.binary_float_of_bits_of_binary_float 52 11 eq_refl eq_refl eq_refl g). f_equal. exact E'.
Qed.
