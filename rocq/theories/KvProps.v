(** C64. *)
From Coq Require Import String List NArith ZArith Bool Permutation Sorted Eqdep_dec.
From Flocq Require Import IEEE754.Binary IEEE754.Bits.
From Verif Require Import Str StrProofs F64 AttrModel AttrProofs KvModel.
Import ListNotations.

(** * Specification *)
(** The values on which IEEE equality and identity agree: no NaN, and no zero with the
    sign set. *)
Definition f64_zero (x : f64) : bool := match x with B754_zero _ _ _ => true | _ => false end.
Definition f64_plain (x : f64) : bool := negb (f64_is_nan x) && negb (match x with B754_zero _ _ s => s | _ => false end).
Definition floats (v : value) : list f64 := match v with VF64 f => [f] | VArray (AF64 l) => l | _ => [] end.
Definition no_nan (v : value) : Prop := Forall (fun f => f64_is_nan f = false) (floats v).
Definition plain (v : value) : Prop := Forall (fun f => f64_plain f = true) (floats v).

(** * Lemmas *)
Lemma f64_eqb_iff : forall x y, f64_eqb x y = true <-> f64_is_nan x = false /\ (x = y \/ f64_zero x = true /\ f64_zero y = true).
Proof.
  intros x y. unfold f64_eqb, f64_cmp, b64_compare, Binary.Bcompare, BinarySingleNaN.Bcompare.
  split.
  - destruct x as [s|s|s p e|s m e He], y as [s'|s'|s' p' e'|s' m' e' He']; cbn; intros H; try discriminate H; try (destruct s; discriminate H); try (destruct s'; discriminate H); split; try reflexivity.
    + right. auto.
    + left. destruct s, s'; try discriminate H; reflexivity.
    + left. destruct s, s'; try discriminate H; destruct (Z.compare e e') eqn:Ee; try discriminate H; apply Z.compare_eq in Ee; subst e';
        change Pos.compare_cont with Pos.compare_cont in H; fold (Pos.compare m m') in H; destruct (Pos.compare m m') eqn:Em; try discriminate H; apply Pos.compare_eq in Em; subst m';
        (f_equal; apply UIP_dec; apply bool_dec).
  - intros [Hn [<- |[H1 H2]]].
    + destruct x as [s|s|s p e|s m e He]; cbn in *; try discriminate Hn; try reflexivity; destruct s; try reflexivity;
        rewrite Z.compare_refl; fold (Pos.compare m m); rewrite Pos.compare_refl; reflexivity.
    + destruct x; try discriminate H1. destruct y; try discriminate H2. reflexivity.
Qed.
Lemma f64_eqb_plain : forall x y, f64_plain x = true -> f64_plain y = true -> f64_eqb x y = true -> x = y.
Proof.
  intros x y Hx Hy H. apply f64_eqb_iff in H. destruct H as [_ [E|[H1 H2]]]; [exact E|].
  destruct x as [s| | |]; try discriminate H1. destruct y as [s'| | |]; try discriminate H2. destruct s; [discriminate Hx|]. destruct s'; [discriminate Hy|]. reflexivity.
Qed.

Section eqlist.
Context {A : Type} (eqb : A -> A -> bool).
Lemma list_eqb_forall2 : forall a b, list_eqb eqb a b = true <-> Forall2 (fun x y => eqb x y = true) a b.
Proof.
  induction a as [|x a IH]; intros [|y b]; cbn [list_eqb]; split; intros H; try discriminate; try (inversion H; fail); try constructor.
  - apply andb_prop in H. tauto.
  - apply IH. apply andb_prop in H. tauto.
  - inversion H as [|p q r s H1 H2]; subst. rewrite H1. apply IH. exact H2.
Qed.
End eqlist.
Lemma list_eqb_sym_gen : forall A (e1 e2 : A -> A -> bool) a b, (forall x y, e1 x y = true -> e2 y x = true) -> list_eqb e1 a b = true -> list_eqb e2 b a = true.
Proof. intros A e1 e2 a b H. rewrite !list_eqb_forall2. induction 1; constructor; auto. Qed.
Lemma list_eqb_trans_gen : forall A (e : A -> A -> bool) a b c, (forall x y z, e x y = true -> e y z = true -> e x z = true) ->
  list_eqb e a b = true -> list_eqb e b c = true -> list_eqb e a c = true.
Proof.
  intros A e a b c H. rewrite !list_eqb_forall2. intros H1. revert c. induction H1 as [|x y a b Hxy Hab IH]; intros c H2; inversion H2; subst; constructor; eauto.
Qed.
Lemma list_eqb_refl_in : forall A (e : A -> A -> bool) a, Forall (fun x => e x x = true) a -> list_eqb e a a = true.
Proof. intros A e a H. rewrite list_eqb_forall2. induction H; constructor; auto. Qed.
Lemma list_eqb_leibniz : forall A (e : A -> A -> bool) (P : A -> Prop) a b, (forall x y, P x -> P y -> e x y = true -> x = y) ->
  Forall P a -> Forall P b -> list_eqb e a b = true -> a = b.
Proof.
  intros A e P a b H Ha Hb. rewrite list_eqb_forall2. intros H1. induction H1 as [|x y a b Hxy Hab IH]; [reflexivity|].
  inversion Ha; inversion Hb; subst. f_equal; auto.
Qed.

Lemma f64_eqb_sym : forall x y, f64_eqb x y = true -> f64_eqb y x = true.
Proof.
  intros x y. rewrite !f64_eqb_iff. intros [Hn [<- |[H1 H2]]]; [auto|]. split; [destruct y; try discriminate H2; reflexivity|auto].
Qed.
Lemma f64_eqb_trans : forall x y z, f64_eqb x y = true -> f64_eqb y z = true -> f64_eqb x z = true.
Proof. intros x y z. rewrite !f64_eqb_iff. intros [Hn [<- |[H1 H2]]] [Hn' [<- |[H3 H4]]]; auto. Qed.
Lemma bool_eqb_t : forall x y, Bool.eqb x y = true <-> x = y. Proof. apply Bool.eqb_true_iff. Qed.

Lemma value_eqb_sym : forall a b, value_eqb a b = true -> value_eqb b a = true.
Proof.
  intros a b. destruct a as [x|x|x|x|x], b as [y|y|y|y|y]; cbn [value_eqb]; try discriminate.
  - rewrite !bool_eqb_t. congruence.
  - rewrite !Z.eqb_eq. congruence.
  - apply f64_eqb_sym.
  - rewrite !str_eqb_eq. congruence.
  - destruct x, y; cbn [array_eqb]; try discriminate; apply list_eqb_sym_gen.
    + intros ? ?. rewrite !bool_eqb_t. congruence.
    + intros ? ?. rewrite !Z.eqb_eq. congruence.
    + exact f64_eqb_sym.
    + intros ? ?. rewrite !str_eqb_eq. congruence.
Qed.
Lemma value_eqb_trans : forall a b c, value_eqb a b = true -> value_eqb b c = true -> value_eqb a c = true.
Proof.
  intros a b c. destruct a as [x|x|x|x|x], b as [y|y|y|y|y]; cbn [value_eqb]; try discriminate; destruct c as [z|z|z|z|z]; cbn [value_eqb]; try discriminate.
  - rewrite !bool_eqb_t. congruence.
  - rewrite !Z.eqb_eq. congruence.
  - apply f64_eqb_trans.
  - rewrite !str_eqb_eq. congruence.
  - destruct x, y; cbn [array_eqb]; try discriminate; destruct z; cbn [array_eqb]; try discriminate; apply list_eqb_trans_gen.
    + intros ? ? ?. rewrite !bool_eqb_t. congruence.
    + intros ? ? ?. rewrite !Z.eqb_eq. congruence.
    + exact f64_eqb_trans.
    + intros ? ? ?. rewrite !str_eqb_eq. congruence.
Qed.
Lemma Forall_true : forall A (P : A -> Prop) l, (forall x, P x) -> Forall P l.
Proof. intros A P l H. induction l; constructor; auto. Qed.
Lemma value_eqb_refl : forall a, value_eqb a a = true <-> no_nan a.
Proof.
  intros a. unfold no_nan. destruct a as [x|x|x|x|x]; cbn [value_eqb floats].
  - rewrite bool_eqb_t. split; [constructor|reflexivity].
  - rewrite Z.eqb_eq. split; [constructor|reflexivity].
  - rewrite f64_eqb_iff. split; [intros [H _]; auto|intros H; inversion H; subst; auto].
  - rewrite str_eqb_refl. split; [constructor|reflexivity].
  - destruct x as [l|l|l|l]; cbn [array_eqb].
    + split; [constructor|intros _]. apply list_eqb_refl_in, Forall_true. intros x. now rewrite bool_eqb_t.
    + split; [constructor|intros _]. apply list_eqb_refl_in, Forall_true. intros x. apply Z.eqb_refl.
    + split; intros H.
      * apply list_eqb_forall2 in H. remember l as l' in H at 2. revert l' Heql' H.
        induction l as [|f l IH]; intros l' E H; subst l'; constructor; inversion H as [|p q r s H1 H2]; subst.
        -- apply f64_eqb_iff in H1. tauto.
        -- eapply IH; [reflexivity|exact H2].
      * apply list_eqb_refl_in. eapply Forall_impl; [|exact H]. intros f Hf. apply f64_eqb_iff. auto.
    + split; [constructor|intros _]. apply list_eqb_refl_in, Forall_true. intros x. apply str_eqb_refl.
Qed.
Lemma value_eqb_plain : forall a b, plain a -> plain b -> value_eqb a b = true -> a = b.
Proof.
  unfold plain. intros a b. destruct a as [x|x|x|x|x], b as [y|y|y|y|y]; cbn [value_eqb floats]; try discriminate; intros Ha Hb H.
  - apply (proj1 (bool_eqb_t _ _)) in H. congruence.
  - apply Z.eqb_eq in H. congruence.
  - inversion Ha; inversion Hb; subst. f_equal. apply f64_eqb_plain; assumption.
  - apply str_eqb_eq in H. congruence.
  - f_equal. destruct x, y; cbn [array_eqb floats] in *; try discriminate; f_equal.
    + eapply (list_eqb_leibniz _ _ (fun _ => True)); try exact H; try (apply Forall_true; auto). intros ? ? _ _. apply bool_eqb_t.
    + eapply (list_eqb_leibniz _ _ (fun _ => True)); try exact H; try (apply Forall_true; auto). intros ? ? _ _. apply Z.eqb_eq.
    + eapply list_eqb_leibniz; try exact H; try eassumption. cbn. apply f64_eqb_plain.
    + eapply (list_eqb_leibniz _ _ (fun _ => True)); try exact H; try (apply Forall_true; auto). intros ? ? _ _. apply str_eqb_eq.
Qed.
Lemma attr_eqb_plain : forall a b : attr, plain (snd a) -> plain (snd b) -> attr_eqb a b = true -> a = b.
Proof.
  intros [k v] [k' v'] Ha Hb H. unfold attr_eqb in H. cbn [fst snd] in *. apply andb_prop in H. destruct H as [H1 H2]. apply str_eqb_eq in H1. apply value_eqb_plain in H2; [|assumption..]. congruence.
Qed.
Lemma plain_no_nan : forall v, plain v -> no_nan v.
Proof. intros v. apply Forall_impl. intros f H. unfold f64_plain in H. apply andb_prop in H. destruct (f64_is_nan f); [destruct H; discriminate|reflexivity]. Qed.
Lemma option_eqb_str : forall a b, option_eqb str_eqb a b = true <-> a = b.
Proof. intros [a|] [b|]; cbn [option_eqb]; rewrite ?str_eqb_eq; split; intros H; try discriminate; try congruence; reflexivity. Qed.

(** * C64 *)
(** Equality of attributes is symmetric and transitive; an attribute equals itself
    exactly when it contains no NaN; apart from NaN and minus zero it is identity, and
    then equal attributes feed a hasher the same data. *)
Theorem C64_attribute_equality : forall a b c : attr,
  (attr_eqb a b = true -> attr_eqb b a = true) /\
  (attr_eqb a b = true -> attr_eqb b c = true -> attr_eqb a c = true) /\
  (attr_eqb a a = true <-> no_nan (snd a)) /\
  (plain (snd a) -> plain (snd b) -> (attr_eqb a b = true <-> a = b)).
Proof.
  intros a b c. unfold attr_eqb. split; [|split; [|split]].
  - intros H. apply andb_prop in H. destruct H as [H1 H2]. apply str_eqb_eq in H1. rewrite H1, str_eqb_refl. now apply value_eqb_sym.
  - intros H H'. apply andb_prop in H, H'. destruct H as [H1 H2], H' as [H3 H4]. apply str_eqb_eq in H1, H3. rewrite H1, H3, str_eqb_refl. eapply value_eqb_trans; eassumption.
  - rewrite str_eqb_refl. apply value_eqb_refl.
  - intros Ha Hb. split; [apply attr_eqb_plain; assumption|]. intros <-. rewrite str_eqb_refl. apply value_eqb_refl. apply plain_no_nan. exact Ha.
Qed.
Print Assumptions C64_attribute_equality.

(** Equality is not reflexive, though the type implements Eq. *)
Theorem C120_reflexive_refuted : ~ (forall a : attr, attr_eqb a a = true).
Proof. intros H. specialize (H ([], VF64 (f64_from_bits 0x7ff8000000000000))). vm_compute in H. discriminate. Qed.
Print Assumptions C120_reflexive_refuted.

(** Zero and minus zero are equal but hash differently. *)
Theorem C120_hash_refuted : ~ (forall a b : attr, attr_eqb a b = true -> attr_hash a = attr_hash b).
Proof. intros H. specialize (H ([], VF64 (f64_from_bits 0)) ([], VF64 (f64_from_bits 0x8000000000000000)) eq_refl). vm_compute in H. discriminate. Qed.
Print Assumptions C120_hash_refuted.

(** Equal attributes hash equally exactly when no float in one is the other zero. *)
Theorem C64_hash : forall a b : attr, attr_eqb a b = true ->
  (attr_hash a = attr_hash b <-> Forall2 (fun x y => f64_bits x = f64_bits y) (floats (snd a)) (floats (snd b))).
Proof.
  intros [k v] [k' v'] H. unfold attr_eqb, attr_hash in *. cbn [fst snd] in *. apply andb_prop in H. destruct H as [H1 H2]. apply str_eqb_eq in H1. subst k'.
  destruct v as [x|x|x|x|x], v' as [y|y|y|y|y]; cbn [value_eqb] in H2; try discriminate; cbn [value_hash floats].
  - apply (proj1 (bool_eqb_t _ _)) in H2. subst. split; [constructor|reflexivity].
  - apply Z.eqb_eq in H2. subst. split; [constructor|reflexivity].
  - split; intros H.
    + injection H as H. constructor; [exact H|constructor].
    + inversion H as [|p q r s E _]; subst. rewrite E. reflexivity.
  - apply str_eqb_eq in H2. subst. split; [constructor|reflexivity].
  - destruct x as [l|l|l|l], y as [m|m|m|m]; cbn [array_eqb] in H2; try discriminate; cbn [value_hash floats].
    + replace m with l; [split; [constructor|reflexivity]|]. eapply (list_eqb_leibniz _ _ (fun _ => True)); try exact H2; try (apply Forall_true; auto). intros ? ? _ _. apply bool_eqb_t.
    + replace m with l; [split; [constructor|reflexivity]|]. eapply (list_eqb_leibniz _ _ (fun _ => True)); try exact H2; try (apply Forall_true; auto). intros ? ? _ _. apply Z.eqb_eq.
    + apply list_eqb_forall2 in H2. induction H2 as [|x y l m Hxy Hlm IH]; [split; [constructor|reflexivity]|]. cbn [map]. split; intros H.
      * injection H as E1 E2. constructor; [exact E1|]. apply IH. f_equal. exact E2.
      * inversion H as [|p q r s E1 E2]; subst. apply IH in E2. injection E2 as E2. rewrite E1, E2. reflexivity.
    + replace m with l; [split; [constructor|reflexivity]|]. eapply (list_eqb_leibniz _ _ (fun _ => True)); try exact H2; try (apply Forall_true; auto). intros ? ? _ _. apply str_eqb_eq.
Qed.
Print Assumptions C64_hash.

Definition plain_scope (a : scope) : Prop := Forall (fun kv => plain (snd kv)) (sc_attrs a).

Section scopes.
Context (srt : list attr -> list attr) (Hsrt : sorter_ok srt).
Lemma srt_plain : forall l, Forall (fun kv : attr => plain (snd kv)) l -> Forall (fun kv : attr => plain (snd kv)) (srt l).
Proof using Hsrt. intros l H. eapply Permutation_Forall; [|exact H]. symmetry. apply Hsrt. Qed.
Lemma scope_eqb_spec : forall a b, plain_scope a -> plain_scope b ->
  (scope_eqb srt a b = true <-> sc_name a = sc_name b /\ sc_version a = sc_version b /\ sc_url a = sc_url b /\ srt (sc_attrs a) = srt (sc_attrs b)).
Proof using Hsrt.
  intros a b Ha Hb. unfold scope_eqb. rewrite !andb_true_iff, str_eqb_eq, !option_eqb_str, Nat.eqb_eq. split.
  - intros [[[[H1 H2] H3] H4] H5]. repeat (split; [assumption|]). eapply list_eqb_leibniz; [| | |exact H5]; [|apply srt_plain; exact Ha|apply srt_plain; exact Hb]. exact attr_eqb_plain.
  - intros (H1 & H2 & H3 & H4). repeat split; try assumption.
    + pose proof (Permutation_length (proj1 (Hsrt (sc_attrs a)))) as L1. pose proof (Permutation_length (proj1 (Hsrt (sc_attrs b)))) as L2. unfold attr in *; rewrite H4 in L1; rewrite <- L1, <- L2; reflexivity.
    + rewrite H4. apply list_eqb_refl_in. eapply Forall_impl; [|apply srt_plain; exact Hb]. intros x Hx. apply (proj1 (proj2 (proj2 (C64_attribute_equality x x x)))). apply plain_no_nan. exact Hx.
Qed.
End scopes.

(** Scopes without NaN or minus zero: equality is an equivalence, equal scopes hash
    equally, and when keys are not repeated it is equality up to the order of the
    attributes. *)
Theorem C64_scope_equality : forall srt, sorter_ok srt -> forall a b c, plain_scope a -> plain_scope b -> plain_scope c ->
  scope_eqb srt a a = true /\
  (scope_eqb srt a b = true -> scope_eqb srt b a = true) /\
  (scope_eqb srt a b = true -> scope_eqb srt b c = true -> scope_eqb srt a c = true) /\
  (scope_eqb srt a b = true -> scope_hash srt a = scope_hash srt b) /\
  (NoDup (map fst (sc_attrs a)) -> NoDup (map fst (sc_attrs b)) ->
   (scope_eqb srt a b = true <-> sc_name a = sc_name b /\ sc_version a = sc_version b /\ sc_url a = sc_url b /\ Permutation (sc_attrs a) (sc_attrs b))).
Proof.
  intros srt Hs a b c Ha Hb Hc. rewrite !(scope_eqb_spec srt Hs) by assumption. split; [auto|]. split; [intuition congruence|]. split; [intuition congruence|].
  split; [intros (H1 & H2 & H3 & H4); unfold scope_hash; congruence|]. intros Na Nb.
  assert (H : srt (sc_attrs a) = srt (sc_attrs b) <-> Permutation (sc_attrs a) (sc_attrs b)); [|tauto].
  assert (Hst : forall l : list attr, NoDup (map fst l) -> strict (srt l)).
  { intros l Hl. destruct (Hs l) as [Hp Hso]. apply sorted_nodup_strict; [exact Hso|]. eapply Permutation_NoDup; [|exact Hl]. apply Permutation_map. symmetry. exact Hp. }
  split; intros H.
  - rewrite <- (proj1 (Hs (sc_attrs a))), H. apply Hs.
  - apply strict_unique; auto. rewrite (proj1 (Hs (sc_attrs a))), H. symmetry. apply Hs.
Qed.
Print Assumptions C64_scope_equality.

(** For any scopes: symmetric and transitive. *)
Theorem C64_scope_partial_equivalence : forall srt a b c,
  (scope_eqb srt a b = true -> scope_eqb srt b a = true) /\
  (scope_eqb srt a b = true -> scope_eqb srt b c = true -> scope_eqb srt a c = true).
Proof.
  intros srt a b c. unfold scope_eqb. split; rewrite !andb_true_iff, !str_eqb_eq, !option_eqb_str, !Nat.eqb_eq.
  - intros [[[[H1 H2] H3] H4] H5]. repeat split; try congruence. eapply list_eqb_sym_gen; [|exact H5]. intros x y. apply C64_attribute_equality. exact x.
  - intros [[[[H1 H2] H3] H4] H5] [[[[G1 G2] G3] G4] G5]. repeat split; try congruence. eapply list_eqb_trans_gen; [|exact H5|exact G5]. intros x y z. apply C64_attribute_equality.
Qed.
Print Assumptions C64_scope_partial_equivalence.

(** With a repeated key the order matters, under the insertion sort the standard library
    uses for short slices. *)
Theorem C120_scope_order_refuted : ~ (forall a b, sc_name a = sc_name b -> sc_version a = sc_version b -> sc_url a = sc_url b ->
  Permutation (sc_attrs a) (sc_attrs b) -> scope_eqb isort a b = true).
Proof.
  intros H. specialize (H (mk_scope [] None None [([], VBool true); ([], VBool false)]) (mk_scope [] None None [([], VBool false); ([], VBool true)]) eq_refl eq_refl eq_refl (perm_swap _ _ _)).
  vm_compute in H. discriminate.
Qed.
Print Assumptions C120_scope_order_refuted.

Example C64_nonvacuous :
  let a := mk_scope [1%N] (Some [2%N]) None [([5%N], VI64 1); ([4%N], VF64 (f64_from_bits 0x3ff0000000000000))] in
  let b := mk_scope [1%N] (Some [2%N]) None [([4%N], VF64 (f64_from_bits 0x3ff0000000000000)); ([5%N], VI64 1)] in
  scope_eqb isort a b = true /\ scope_eqb isort a (mk_scope [1%N] None None (sc_attrs a)) = false /\ plain_scope a /\ NoDup (map fst (sc_attrs a)).
Proof.
  cbn zeta. split; [vm_compute; reflexivity|]. split; [vm_compute; reflexivity|]. split.
  - unfold plain_scope, plain. cbn [sc_attrs snd floats]. constructor; [constructor|]. constructor; [|constructor]. constructor; [vm_compute; reflexivity|constructor].
  - cbn. constructor; [intros [E|[]]; discriminate|]. constructor; [intros []|constructor].
Qed.
