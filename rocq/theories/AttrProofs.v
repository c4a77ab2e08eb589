(** The canonical form of attribute lists. *)
From Coq Require Import List NArith Bool Permutation Sorted.
From Verif Require Import Str AttrModel.
Import ListNotations.

Lemma str_cmp_refl : forall a, str_cmp a a = Eq.
Proof. induction a as [|x a IH]; cbn; [reflexivity|]. rewrite N.compare_refl. exact IH. Qed.
Lemma str_cmp_eq : forall a b, str_cmp a b = Eq <-> a = b.
Proof.
  intros a b. split; [|intros ->; apply str_cmp_refl]. revert b. induction a as [|x a IH]; intros [|y b]; cbn; try discriminate; auto.
  destruct (N.compare_spec x y); try discriminate. intros E. f_equal; auto.
Qed.
Lemma str_cmp_antisym : forall a b, str_cmp b a = CompOpp (str_cmp a b).
Proof. induction a as [|x a IH]; intros [|y b]; cbn; auto. rewrite (N.compare_antisym x y). destruct (N.compare x y); cbn; auto. Qed.
Lemma str_cmp_trans : forall a b c, str_cmp a b = Lt -> str_cmp b c = Lt -> str_cmp a c = Lt.
Proof.
  induction a as [|x a IH]; intros [|y b] [|z c]; cbn; try discriminate; auto.
  destruct (N.compare_spec x y), (N.compare_spec y z); try discriminate; intros H1 H2; subst.
  - rewrite N.compare_refl. eauto.
  - apply N.compare_lt_iff in H0. rewrite H0. reflexivity.
  - apply N.compare_lt_iff in H. rewrite H. reflexivity.
  - assert (x < z)%N by (eapply N.lt_trans; eauto). apply N.compare_lt_iff in H3. rewrite H3. reflexivity.
Qed.

Section proofs.
Context {Vl : Type}.
Notation kv := (kv Vl).
Definition klt (a b : kv) : Prop := str_cmp (fst a) (fst b) = Lt.
Lemma klt_trans a b c : klt a b -> klt b c -> klt a c.
Proof. apply str_cmp_trans. Qed.
Lemma kle_trans a b c : kle (Vl := Vl) a b -> kle b c -> kle a c.
Proof.
  unfold kle. destruct (str_cmp (fst a) (fst b)) eqn:E1; [|destruct (str_cmp (fst b) (fst c)) eqn:E2|contradiction].
  - apply str_cmp_eq in E1. rewrite E1. auto.
  - apply str_cmp_eq in E2. rewrite <- E2, E1. intros; discriminate.
  - rewrite (str_cmp_trans _ _ _ E1 E2). intros; discriminate.
  - intros _ H; contradiction.
Qed.
Lemma klt_irrefl a : ~ klt a a.
Proof. unfold klt. rewrite str_cmp_refl. discriminate. Qed.

(** Strictly sorted lists. *)
Definition strict (l : list kv) : Prop := StronglySorted klt l.
Lemma strict_keys l : strict l -> NoDup (map fst l).
Proof.
  induction 1 as [|a l H IH HF]; cbn; constructor; auto. rewrite in_map_iff. intros (b & E & Hb). rewrite Forall_forall in HF. specialize (HF b Hb).
  unfold klt in HF. rewrite E, str_cmp_refl in HF. discriminate.
Qed.
Lemma strict_unique : forall l m, strict l -> strict m -> Permutation l m -> l = m.
Proof.
  induction l as [|a l IH]; intros m Hl Hm P; [symmetry; apply Permutation_nil, P|].
  destruct m as [|b m]; [apply Permutation_sym, Permutation_nil in P; discriminate|].
  inversion Hl as [|? ? Hl1 Hl2]; subst. inversion Hm as [|? ? Hm1 Hm2]; subst. rewrite Forall_forall in Hl2, Hm2.
  assert (a = b) as <-.
  { destruct (Permutation_in _ P (or_introl eq_refl)) as [E|Ha]; [auto|]. destruct (Permutation_in _ (Permutation_sym P) (or_introl eq_refl)) as [E|Hb]; [auto|].
    exfalso. apply (klt_irrefl a). eapply klt_trans; [apply (Hl2 b Hb)|apply (Hm2 a Ha)]. }
  f_equal. apply IH; auto. eapply Permutation_cons_inv, P.
Qed.
Lemma dedup_from_strict : forall l a, Sorted kle (a :: l) -> StronglySorted klt (a :: dedup_from a l).
Proof.
  induction l as [|b l IH]; intros a H; cbn [dedup_from]; [constructor; constructor|].
  apply Sorted_StronglySorted in H; [|intros x y z; apply kle_trans]. inversion H as [|? ? H1 H2]; subst. inversion H1 as [|? ? H3 H4]; subst. inversion H2 as [|? ? H5 H6]; subst.
  assert (S1 : Sorted kle (b :: l)) by (apply StronglySorted_Sorted, H1).
  assert (S2 : Sorted kle (a :: l)) by (apply StronglySorted_Sorted; constructor; assumption).
  rewrite str_cmp_antisym. destruct (str_cmp (fst a) (fst b)) eqn:E; cbn; [apply IH, S2| |exfalso; apply H5, E].
  specialize (IH b S1). constructor; [exact IH|]. inversion IH as [|? ? H7 H8]; subst. constructor; [exact E|].
  eapply Forall_impl; [|exact H8]. intros c Hc. eapply klt_trans; [exact E|exact Hc].
Qed.
Lemma dedup_strict l : Sorted kle l -> strict (dedup_keys l).
Proof. destruct l; cbn; [constructor|]. apply dedup_from_strict. Qed.
Lemma dedup_from_in : forall l a x, In x (dedup_from a l) -> In x (l : list kv).
Proof. induction l as [|b l IH]; intros a x; cbn; [auto|]. destruct (str_cmp (fst b) (fst a)); cbn; intuition eauto. Qed.
Lemma dedup_in l x : In x (dedup_keys l) -> In x (l : list kv).
Proof. destruct l; cbn; [auto|]. intros [H|H]; [auto|right; eapply dedup_from_in, H]. Qed.
Lemma dedup_from_keys : forall l a x, In x (l : list kv) -> In (fst x) (map fst (a :: dedup_from a l)).
Proof.
  induction l as [|b l IH]; intros a x; cbn [In]; [intros []|]. cbn [dedup_from]. intros [->|H].
  - destruct (str_cmp (fst x) (fst a)) eqn:E; cbn; auto. apply str_cmp_eq in E. auto.
  - destruct (str_cmp (fst b) (fst a)) eqn:E; [apply IH, H| |]; specialize (IH b x H); cbn in *; tauto.
Qed.
Lemma dedup_keys_all l x : In x (l : list kv) -> In (fst x) (map fst (dedup_keys l)).
Proof. destruct l as [|a l]; [intros []|]. intros [->|H]; [left; reflexivity|]. apply dedup_from_keys, H. Qed.
Lemma dedup_id l : strict l -> dedup_keys l = l.
Proof.
  destruct l as [|a l]; [reflexivity|]. cbn [dedup_keys]. intros H. f_equal. revert a H. induction l as [|b l IH]; intros a H; [reflexivity|]. cbn.
  inversion H as [|? ? H1 H2]; subst. inversion H2 as [|? ? H3 H4]; subst. rewrite str_cmp_antisym. unfold klt in H3. rewrite H3. cbn. f_equal. apply IH, H1.
Qed.
Lemma sorted_nodup_strict l : Sorted kle l -> NoDup (map fst l) -> strict l.
Proof.
  intros H. apply Sorted_StronglySorted in H; [|intros x y z; apply kle_trans]. induction H as [|a l H IH HF]; intros Hn; [constructor|]. cbn in Hn. inversion Hn as [|? ? Hn1 Hn2]; subst.
  constructor; [apply IH, Hn2|]. rewrite Forall_forall in *. intros b Hb. specialize (HF b Hb). unfold kle, klt in *. destruct (str_cmp (fst a) (fst b)) eqn:E; [|reflexivity|contradiction].
  apply str_cmp_eq in E. exfalso. apply Hn1. rewrite E. apply in_map, Hb.
Qed.

Variable srt : list kv -> list kv.
Hypothesis Hs : sorter_ok srt.
Notation canon := (sort_and_dedup srt).
Lemma canon_strict l : strict (canon l).
Proof. apply dedup_strict, Hs. Qed.
Lemma canon_sub l x : In x (canon l) -> In x l.
Proof. intros H. apply dedup_in in H. exact (Permutation_in _ (proj1 (Hs l)) H). Qed.
Lemma canon_keys l x : In x l -> In (fst x) (map fst (canon l)).
Proof. intros H. apply dedup_keys_all. exact (Permutation_in _ (Permutation_sym (proj1 (Hs l))) H). Qed.
Lemma canon_nodup l : NoDup (map fst l) -> Permutation (canon l) l.
Proof.
  intros H. unfold sort_and_dedup. destruct (Hs l) as [P S]. rewrite dedup_id; [exact P|]. apply sorted_nodup_strict; [exact S|].
  eapply Permutation_NoDup; [|exact H]. apply Permutation_map, Permutation_sym, P.
Qed.
Lemma canon_id l : strict l -> canon l = l.
Proof. intros H. apply strict_unique; [apply canon_strict|exact H|]. apply canon_nodup, strict_keys, H. Qed.
Lemma canon_idem l : canon (canon l) = canon l.
Proof. apply canon_id, canon_strict. Qed.
Lemma canon_nil l : canon l = [] <-> l = [].
Proof.
  split; intros H.
  - destruct l as [|a l]; [reflexivity|]. pose proof (canon_keys (a :: l) a (or_introl eq_refl)) as X. rewrite H in X. destruct X.
  - subst. apply canon_id. constructor.
Qed.
Lemma canon_single a : canon [a] = [a].
Proof. apply canon_id. constructor; constructor. Qed.
Lemma canon_perm a b : NoDup (map fst a) -> NoDup (map fst b) -> (canon a = canon b <-> Permutation a b).
Proof.
  intros Ha Hb. split; intros H.
  - rewrite <- (canon_nodup a Ha), H. apply canon_nodup, Hb.
  - apply strict_unique; [apply canon_strict|apply canon_strict|]. rewrite (canon_nodup a Ha), (canon_nodup b Hb). exact H.
Qed.
End proofs.

Lemma sinsert_perm {Vl} (a : kv Vl) : forall l, Permutation (sinsert a l) (a :: l).
Proof. induction l as [|b l IH]; cbn; [reflexivity|]. destruct (str_cmp (fst a) (fst b)); [reflexivity|reflexivity|]. rewrite IH. apply perm_swap. Qed.
Lemma sinsert_sorted {Vl} (a : kv Vl) : forall l, Sorted kle l -> Sorted kle (sinsert a l).
Proof.
  induction l as [|b l IH]; intros H; cbn; [repeat constructor|]. inversion H as [|? ? H1 H2]; subst.
  destruct (str_cmp (fst a) (fst b)) eqn:E; [constructor; [exact H|constructor; unfold kle; rewrite E; discriminate]|constructor; [exact H|constructor; unfold kle; rewrite E; discriminate]|].
  constructor; [apply IH, H1|]. assert (Hb : kle b a) by (unfold kle; rewrite str_cmp_antisym, E; discriminate).
  destruct l as [|c l]; cbn; [constructor; exact Hb|]. inversion H2; subst. destruct (str_cmp (fst a) (fst c)); constructor; assumption.
Qed.
Lemma isort_ok {Vl} : sorter_ok (@isort Vl).
Proof.
  intros l. induction l as [|a l [IH1 IH2]]; cbn; [split; constructor|]. split; [rewrite sinsert_perm, IH1; reflexivity|apply sinsert_sorted, IH2].
Qed.
