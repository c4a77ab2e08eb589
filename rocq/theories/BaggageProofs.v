From Coq Require Import String List NArith Bool Lia.
From Coq Require Import ZifyBool ZifyNat ZifyN.
From stdpp Require Import base list gmap.
From Verif Require Import Str StrProofs ContextModel BaggageModel BaggageSpec.
Import ListNotations.
Local Open Scope N_scope.

Arguments N.add : simpl never.
Arguments N.sub : simpl never.

(** * The map *)

Definition esize (e : str * (str * str)) : N :=
  blen (fst e) + blen (fst (snd e)) + blen (snd (snd e)).

Lemma content_sum m : content m = fold_right (fun e acc => esize e + acc) 0 (map_to_list m).
Proof. reflexivity. Qed.

Lemma sum_perm l l' : l ≡ₚ l' ->
  fold_right (fun e acc => esize e + acc) 0 l = fold_right (fun e acc => esize e + acc) 0 l'.
Proof. induction 1; cbn [fold_right]; [reflexivity|congruence|lia|congruence]. Qed.

Lemma content_empty : content ∅ = 0.
Proof. rewrite content_sum, map_to_list_empty. reflexivity. Qed.

Lemma content_insert_new m k v md : m !! k = None ->
  content (<[k := (v, md)]> m) = kvm_size k v md + content m.
Proof.
  intros H. rewrite !content_sum. rewrite (sum_perm _ _ (map_to_list_insert m k (v, md) H)).
  cbn [fold_right]. unfold esize at 1, kvm_size. cbn [fst snd]. lia.
Qed.

Lemma content_delete m k v md : m !! k = Some (v, md) ->
  content m = kvm_size k v md + content (delete k m).
Proof.
  intros H. rewrite <- (insert_delete m k (v, md) H) at 1.
  apply content_insert_new. apply lookup_delete.
Qed.

Lemma content_insert_old m k v md pv pm : m !! k = Some (pv, pm) ->
  content (<[k := (v, md)]> m) + kvm_size k pv pm = content m + kvm_size k v md.
Proof.
  intros H. rewrite (content_delete m k pv pm H), <- insert_delete_insert.
  rewrite content_insert_new by apply lookup_delete. lia.
Qed.

(** ** Keys *)

Lemma forallb_ext {A} (f g : A -> bool) l : (forall x, f x = g x) -> forallb f l = forallb g l.
Proof. intros H. induction l; cbn; congruence. Qed.

Lemma is_key_valid_spec k : is_key_valid (utf8 k) = true <-> permitted_key k.
Proof.
  unfold permitted_key.
  assert (forall c, ascii_graphic c && negb (existsb (N.eqb c) invalid_key_chars) = true <-> token_char c) as Hc.
  { intros c. rewrite andb_true_iff, negb_true_iff, <- not_true_iff_false, existsb_exists.
    unfold token_char, ascii_graphic, between. rewrite andb_true_iff, !N.leb_le.
    assert ((exists x, In x invalid_key_chars /\ (c =? x) = true) <->
            In c (of_string "(),/:;<=>?@[\]{}"%string ++ [34])) as H.
    { split.
      - intros (x & Hin & He). apply N.eqb_eq in He. subst x. exact Hin.
      - intros Hin. exists c. split; [exact Hin|apply N.eqb_refl]. }
    rewrite H. reflexivity. }
  split.
  - intros H.
    assert (forallb (fun c => c <? 0x80) k = true) as Hasc.
    { unfold is_key_valid in H. apply andb_true_iff in H as [_ H]. rewrite forallb_forall in H.
      apply forallb_forall. intros c Hin. apply N.ltb_lt.
      destruct (N.ltb_spec c 0x80) as [|Hge]; [assumption|exfalso].
      pose proof (utf8_char_high c Hge) as Hh.
      assert (exists b, In b (utf8_char c)) as [b Hb].
      { unfold utf8_char. destruct (c <? 0x80); [|destruct (c <? 0x800); [|destruct (c <? 0x10000)]];
          eexists; left; reflexivity. }
      assert (In b (utf8 k)) as Hb' by (apply in_flat_map; exists c; tauto).
      apply H in Hb'. apply andb_true_iff in Hb' as [Hg _].
      unfold ascii_graphic, between in Hg.
      rewrite List.Forall_forall in Hh. specialize (Hh b Hb). lia. }
    rewrite (utf8_ascii k Hasc) in H. unfold is_key_valid in H.
    apply andb_true_iff in H as [H1 H2]. split.
    + intros ->. discriminate.
    + apply List.Forall_forall. intros c Hin. rewrite forallb_forall in H2. apply Hc, H2, Hin.
  - intros [Hne Hall].
    assert (forallb (fun c => c <? 0x80) k = true) as Hasc.
    { apply forallb_forall. intros c Hin. rewrite List.Forall_forall in Hall.
      destruct (Hall c Hin) as [? _]. lia. }
    rewrite (utf8_ascii k Hasc). unfold is_key_valid. apply andb_true_iff. split.
    + destruct k; [contradiction|reflexivity].
    + apply forallb_forall. intros c Hin. rewrite List.Forall_forall in Hall. apply Hc, Hall, Hin.
Qed.

(** ** Reachable baggages *)

(** Bytes of the entries removed along a history (ghost). *)
Fixpoint removed_from (b : baggage) (ops : list bg_op) : N :=
  match ops with
  | [] => 0
  | o :: r =>
    (match o with
     | BRemove k => match bg_map b !! k with Some (v, m) => kvm_size k v m | None => 0 end
     | BInsert _ _ _ => 0
     end) + removed_from (bg_step b o) r
  end.

Record BInv (rem : N) (b : baggage) : Prop := {
  inv_len : bg_len b = content (bg_map b) + rem;
  inv_max : bg_len b <= MAX_LEN;
  inv_size : N.of_nat (size (bg_map b)) <= MAX_PAIRS;
  inv_keys : forall k e, bg_map b !! k = Some e -> permitted_key k }.

Lemma BInv_new : BInv 0 bg_new.
Proof.
  constructor; cbn [bg_len bg_map bg_new].
  - rewrite content_empty. reflexivity.
  - unfold MAX_LEN. lia.
  - rewrite map_size_empty. unfold MAX_PAIRS. lia.
  - intros k e H. rewrite lookup_empty in H. discriminate.
Qed.

(** Full characterisation of an insert. *)
Definition accepts (b : baggage) (k v m : str) : Prop :=
  match bg_map b !! k with
  | Some (pv, pm) => bg_len b + kvm_size k v (trim m) <= MAX_LEN + kvm_size k pv pm
  | None => permitted_key k /\ N.of_nat (size (bg_map b)) <> MAX_PAIRS /\
            bg_len b + kvm_size k v (trim m) <= MAX_LEN
  end.

Lemma insert_cases rem b k v m : BInv rem b ->
  (accepts b k v m /\
   bg_insert b k v m =
     (mk_baggage (<[k := (v, trim m)]> (bg_map b))
        (content (<[k := (v, trim m)]> (bg_map b)) + rem), bg_map b !! k)) \/
  (~ accepts b k v m /\ bg_insert b k v m = (b, None)).
Proof.
  intros HI. unfold bg_insert, accepts, metadata_from. set (md := trim m).
  pose proof (inv_len _ _ HI) as Hlen.
  destruct (bg_map b !! k) as [[pv pm]|] eqn:E.
  - pose proof (content_delete _ _ _ _ E) as Hd.
    pose proof (content_insert_old _ k v md _ _ E) as Hi.
    destruct (N.ltb_spec MAX_LEN (bg_len b + kvm_size k v md - kvm_size k pv pm)) as [Hlt|Hge].
    + right. split; [lia|reflexivity].
    + left. split; [lia|]. f_equal. f_equal. lia.
  - destruct (is_key_valid (utf8 k)) eqn:Ek; cbn [negb].
    + apply is_key_valid_spec in Ek.
      destruct (N.eqb_spec (N.of_nat (size (bg_map b))) MAX_PAIRS) as [He|Hne].
      * right. split; [|reflexivity]. tauto.
      * pose proof (content_insert_new _ k v md E) as Hi.
        destruct (N.ltb_spec MAX_LEN (bg_len b + kvm_size k v md)) as [Hlt|Hge].
        -- right. split; [|reflexivity]. intros (_ & _ & ?). lia.
        -- left. split; [tauto|]. f_equal. f_equal. lia.
    + right. split; [|reflexivity]. intros (Hk & _). apply is_key_valid_spec in Hk. congruence.
Qed.

Lemma BInv_insert rem b k v m : BInv rem b -> BInv rem (fst (bg_insert b k v m)).
Proof.
  intros HI. pose proof HI as [H1 H2 H3 H4].
  destruct (insert_cases rem b k v m HI) as [[Ha ->]|[_ ->]]; cbn [fst]; [|exact HI].
  unfold accepts in Ha. constructor; cbn [bg_map bg_len].
  - reflexivity.
  - destruct (bg_map b !! k) as [[pv pm]|] eqn:E.
    + pose proof (content_insert_old _ k v (trim m) _ _ E). lia.
    + pose proof (content_insert_new _ k v (trim m) E). lia.
  - destruct (bg_map b !! k) as [[pv pm]|] eqn:E.
    + rewrite map_size_insert_Some by eauto. exact H3.
    + rewrite map_size_insert_None by assumption. lia.
  - intros k' e. destruct (decide (k = k')) as [<-|Hne].
    + intros _. destruct (bg_map b !! k) as [[pv pm]|] eqn:E; [eapply H4; exact E|apply Ha].
    + rewrite lookup_insert_ne by assumption. apply H4.
Qed.

Lemma BInv_remove rem b k : BInv rem b ->
  BInv (match bg_map b !! k with Some (v, m) => kvm_size k v m | None => 0 end + rem)
       (fst (bg_remove b k)).
Proof.
  intros [H1 H2 H3 H4]. unfold bg_remove; cbn [fst]. constructor; cbn [bg_map bg_len].
  - destruct (bg_map b !! k) as [[v m]|] eqn:E.
    + pose proof (content_delete _ _ _ _ E). lia.
    + rewrite delete_notin by assumption. lia.
  - exact H2.
  - destruct (bg_map b !! k) as [[v m]|] eqn:E.
    + rewrite map_size_delete_Some by eauto. lia.
    + rewrite delete_notin by assumption. exact H3.
  - intros k' e H. apply lookup_delete_Some in H as [_ H]. eapply H4; exact H.
Qed.

Lemma BInv_run ops : forall b rem, BInv rem b ->
  BInv (rem + removed_from b ops) (fold_left bg_step ops b).
Proof.
  induction ops as [|o ops IH]; intros b rem HI; cbn [fold_left removed_from].
  - rewrite N.add_0_r. exact HI.
  - destruct o as [k v m|k].
    + cbn [bg_step]. rewrite N.add_0_l. apply IH. apply BInv_insert. exact HI.
    + cbn [bg_step]. rewrite N.add_assoc. apply IH. rewrite N.add_comm. apply BInv_remove. exact HI.
Qed.

Lemma BInv_reach ops : BInv (removed_from bg_new ops) (bg_run ops).
Proof. apply (BInv_run ops bg_new 0 BInv_new). Qed.

Lemma limits ops :
  (size (bg_map (bg_run ops)) <= 64)%nat /\ content (bg_map (bg_run ops)) <= 8192 /\
  forall k e, bg_map (bg_run ops) !! k = Some e -> permitted_key k.
Proof.
  destruct (BInv_reach ops) as [H1 H2 H3 H4]. unfold MAX_LEN, MAX_PAIRS in *.
  split; [lia|]. split; [lia|exact H4].
Qed.

Lemma run_app a b : bg_run (a ++ b) = fold_left bg_step b (bg_run a).
Proof. apply fold_left_app. Qed.

(** from_iter is a run of inserts *)
Lemma from_iter_run l :
  bg_from_iter l = bg_run (map (fun e => BInsert (fst e) (fst (snd e)) (snd (snd e))) l).
Proof.
  unfold bg_from_iter, bg_run. generalize bg_new. induction l as [|e l IH]; intros b; [reflexivity|].
  cbn [map fold_left]. rewrite IH. reflexivity.
Qed.

(** ** Map semantics *)

Lemma insert_semantics ops k v m :
  let b := bg_run ops in
  let r := bg_insert b k v m in
  (r = (b, None) \/
   (snd r = bg_get_with_metadata b k /\
    bg_get_with_metadata (fst r) k = Some (v, trim m) /\
    forall k', k' <> k -> bg_get_with_metadata (fst r) k' = bg_get_with_metadata b k')).
Proof.
  cbn zeta. destruct (insert_cases _ _ k v m (BInv_reach ops)) as [[_ ->]|[_ ->]]; [right|left; reflexivity].
  cbn [fst snd]. unfold bg_get_with_metadata; cbn [bg_map]. split; [reflexivity|]. split.
  - apply lookup_insert.
  - intros k' Hne. apply lookup_insert_ne. congruence.
Qed.

(** When an insert is accepted, in terms of the visible entries and the bytes
    removed earlier. *)
Lemma insert_acceptance ops k v m :
  let b := bg_run ops in
  bg_get_with_metadata (fst (bg_insert b k v m)) k = Some (v, trim m) <->
  bg_get_with_metadata b k = Some (v, trim m) \/
  (match bg_get_with_metadata b k with
   | Some _ => True
   | None => permitted_key k /\ (bg_size b < 64)%nat
   end /\
   content (<[k := (v, trim m)]> (bg_map b)) + removed_from bg_new ops <= 8192).
Proof.
  cbn zeta. set (b := bg_run ops). pose proof (BInv_reach ops) as HI. fold b in HI.
  pose proof HI as [H1 H2 H3 H4].
  destruct (insert_cases _ _ k v m HI) as [[Ha ->]|[Ha ->]]; cbn [fst];
    unfold bg_get_with_metadata, bg_size; cbn [bg_map].
  - split; [intros _; right|intros _; apply lookup_insert].
    unfold accepts in Ha. destruct (bg_map b !! k) as [[pv pm]|] eqn:E.
    + split; [exact I|]. pose proof (content_insert_old _ k v (trim m) _ _ E). unfold MAX_LEN in *. lia.
    + pose proof (content_insert_new _ k v (trim m) E). unfold MAX_LEN, MAX_PAIRS in *.
      destruct Ha as (Ha1 & Ha2 & Ha3). split; [split; [exact Ha1|lia]|lia].
  - split; [tauto|]. intros [H|[Hk Hc]]; [exact H|]. exfalso. apply Ha. unfold accepts.
    destruct (bg_map b !! k) as [[pv pm]|] eqn:E.
    + pose proof (content_insert_old _ k v (trim m) _ _ E). unfold MAX_LEN in *. lia.
    + pose proof (content_insert_new _ k v (trim m) E). unfold MAX_LEN, MAX_PAIRS in *.
      destruct Hk as [Hk1 Hk2]. split; [exact Hk1|]. split; [lia|lia].
Qed.

(** A history without effective removals: nothing was leaked. *)
Lemma removed_none ops :
  Forall (fun o => match o with BInsert _ _ _ => True | BRemove _ => False end) ops ->
  forall b, removed_from b ops = 0.
Proof.
  induction 1 as [|o ops Ho _ IH]; intros b; [reflexivity|]. cbn [removed_from].
  destruct o; [|contradiction]. rewrite IH. reflexivity.
Qed.

Lemma remove_semantics ops k :
  let b := bg_run ops in
  snd (bg_remove b k) = bg_get_with_metadata b k /\
  bg_get_with_metadata (fst (bg_remove b k)) k = None /\
  forall k', k' <> k -> bg_get_with_metadata (fst (bg_remove b k)) k' = bg_get_with_metadata b k'.
Proof.
  cbn zeta. unfold bg_remove, bg_get_with_metadata; cbn [fst snd bg_map]. split; [reflexivity|]. split.
  - apply lookup_delete.
  - intros k' Hne. apply lookup_delete_ne. congruence.
Qed.

(** * Percent coding *)

Fixpoint npx (bs : list N) : Prop :=
  match bs with
  | [] => True
  | b :: r =>
    (b = 37 -> match r with h :: l :: _ => hex_val h = None \/ hex_val l = None | _ => True end) /\ npx r
  end.

Lemma no_escape_npx s : no_escape s <-> npx s.
Proof.
  unfold no_escape. induction s as [|c s IH]; cbn [npx].
  - split; [intros _; exact I|]. intros _ a h l b H. destruct a; discriminate.
  - split.
    + intros H. split.
      * intros ->. destruct s as [|h [|l r]]; try exact I. apply (H [] h l r). reflexivity.
      * apply IH. intros a h l b ->. apply (H (c :: a) h l b). reflexivity.
    + intros [H1 H2] a h l b E. destruct a as [|x a]; cbn [app] in E.
      * injection E as -> ->. apply H1. reflexivity.
      * injection E as -> E. pose proof (proj2 IH H2) as H3. eapply H3. exact E.
Qed.

Lemma pct_decode_unfold b r : b <> 37 -> pct_decode (b :: r) = b :: pct_decode r.
Proof. intros H. cbn [pct_decode]. destruct (N.eqb_spec b 37); [contradiction|reflexivity]. Qed.

Lemma pct_decode_lit r :
  match r with h :: l :: _ => hex_val h = None \/ hex_val l = None | _ => True end ->
  pct_decode (37 :: r) = 37 :: pct_decode r.
Proof.
  intros H. cbn [pct_decode]. rewrite N.eqb_refl. destruct r as [|h [|l r]]; try reflexivity.
  destruct (hex_val h) as [x|]; [|reflexivity]. destruct (hex_val l) as [y|]; [|reflexivity].
  destruct H; discriminate.
Qed.

Lemma pct_decode_raw bs : npx bs -> pct_decode bs = bs.
Proof.
  induction bs as [|b r IH]; [reflexivity|]. intros [H1 H2].
  destruct (N.eq_dec b 37) as [->|Hne].
  - rewrite pct_decode_lit by (apply H1; reflexivity). rewrite IH by exact H2. reflexivity.
  - rewrite pct_decode_unfold by exact Hne. rewrite IH by exact H2. reflexivity.
Qed.

Lemma pct_decode_byte b r : b < 256 -> pct_decode (pct_byte b ++ r) = b :: pct_decode r.
Proof.
  intros H. unfold pct_byte. cbn [app pct_decode]. rewrite N.eqb_refl.
  assert (b / 16 < 16) by (apply N.div_lt_upper_bound; lia).
  assert (b mod 16 < 16) by (apply N.mod_lt; lia).
  rewrite !hex_val_char_upper by assumption.
  f_equal. pose proof (N.div_mod' b 16). lia.
Qed.

Lemma hex_val_not_escaped h x : hex_val h = Some x -> should_encode h = false.
Proof.
  unfold hex_val, is_digit, between, should_encode, in_fragment.
  destruct ((48 <=? h) && (h <=? 57)) eqn:E1; [intros _; lia|].
  destruct ((97 <=? h) && (h <=? 102)) eqn:E2; [intros _; lia|].
  destruct ((65 <=? h) && (h <=? 70)) eqn:E3; [intros _; lia|discriminate].
Qed.

Definition escape (b : N) : list N := if should_encode b then pct_byte b else [b].

Lemma pct_decode_encoded bs : Forall (fun b => b < 256) bs -> npx bs ->
  pct_decode (flat_map escape bs) = bs.
Proof.
  induction bs as [|b r IH]; [reflexivity|]. intros Hb [H1 H2].
  apply Forall_cons in Hb as [Hb Hr]. cbn [flat_map]. unfold escape at 1.
  destruct (should_encode b) eqn:Es.
  - rewrite pct_decode_byte by exact Hb. rewrite IH by assumption. reflexivity.
  - cbn [app]. destruct (N.eq_dec b 37) as [->|Hne].
    + rewrite pct_decode_lit; [rewrite IH by assumption; reflexivity|].
      specialize (H1 eq_refl). destruct r as [|h r]; [exact I|].
      cbn [flat_map]. unfold escape at 1. destruct (should_encode h) eqn:Eh.
      * cbn. left. reflexivity.
      * cbn [app]. destruct r as [|l r]; [exact I|]. cbn [flat_map]. unfold escape at 1.
        destruct (should_encode l) eqn:El.
        -- cbn [pct_byte app]. right. reflexivity.
        -- cbn [app]. exact H1.
    + rewrite pct_decode_unfold by exact Hne. rewrite IH by assumption. reflexivity.
Qed.

Lemma utf8_bytes s : wf_str s = true -> Forall (fun b => b < 256) (utf8 s).
Proof.
  intros H. apply List.Forall_forall. intros b Hb. apply in_flat_map in Hb as (c & Hc & Hb).
  unfold wf_str in H. rewrite forallb_forall in H. apply H in Hc. unfold is_scalar in Hc.
  unfold utf8_char in Hb.
  destruct (N.ltb_spec c 0x80); [destruct Hb as [<-|[]]; lia|].
  pose proof (N.mod_lt c 64 ltac:(lia)). pose proof (N.mod_lt (c / 64) 64 ltac:(lia)).
  pose proof (N.mod_lt (c / 4096) 64 ltac:(lia)).
  destruct (N.ltb_spec c 0x800).
  { assert (c / 64 < 32) by (apply N.div_lt_upper_bound; lia).
    destruct Hb as [<-|[<-|[]]]; lia. }
  destruct (N.ltb_spec c 0x10000).
  { assert (c / 4096 < 16) by (apply N.div_lt_upper_bound; lia).
    destruct Hb as [<-|[<-|[<-|[]]]]; lia. }
  assert (c / 262144 < 5) by (apply N.div_lt_upper_bound; lia).
  destruct Hb as [<-|[<-|[<-|[<-|[]]]]]; lia.
Qed.

Lemma npx_app_high a r : Forall (fun b => 0x80 <= b) a -> npx r -> npx (a ++ r).
Proof. induction 1 as [|b a Hb _ IH]; intros H; [exact H|]. cbn [app npx]. split; [lia|apply IH, H]. Qed.

Lemma hex_val_high b : 0x80 <= b -> hex_val b = None.
Proof. intros H. unfold hex_val, is_digit, between.
  replace ((48 <=? b) && (b <=? 57)) with false by lia.
  replace ((97 <=? b) && (b <=? 102)) with false by lia.
  replace ((65 <=? b) && (b <=? 70)) with false by lia. reflexivity. Qed.

Lemma utf8_char_head c : 0x80 <= c -> exists b r, utf8_char c = b :: r /\ 0x80 <= b.
Proof.
  intros H. pose proof (utf8_char_high c H) as Hh. destruct (utf8_char c) as [|b r] eqn:E.
  - exfalso. unfold utf8_char in E. destruct (c <? 0x80); [discriminate|].
    destruct (c <? 0x800); [discriminate|]. destruct (c <? 0x10000); discriminate.
  - exists b, r. split; [reflexivity|]. inversion Hh. assumption.
Qed.

Lemma npx_utf8 s : npx s -> npx (utf8 s).
Proof.
  induction s as [|c s IH]; [intros; exact I|]. intros [H1 H2]. cbn [utf8 flat_map].
  change (flat_map utf8_char s) with (utf8 s).
  destruct (N.ltb_spec c 0x80) as [Hc|Hc].
  - unfold utf8_char. destruct (N.ltb_spec c 0x80) as [_|?]; [|lia]. cbn [app npx].
    split; [|apply IH, H2]. intros E. specialize (H1 E). destruct s as [|h s]; [exact I|].
    cbn [utf8 flat_map]. destruct (N.ltb_spec h 0x80) as [Hh|Hh].
    + unfold utf8_char at 1. destruct (N.ltb_spec h 0x80) as [_|?]; [|lia]. cbn [app].
      destruct s as [|l s]; [exact I|]. cbn [flat_map].
      destruct (N.ltb_spec l 0x80) as [Hl|Hl].
      * unfold utf8_char at 1. destruct (N.ltb_spec l 0x80) as [_|?]; [|lia]. cbn [app]. exact H1.
      * destruct (utf8_char_head l Hl) as (b & r & -> & Hb). cbn [app]. right. apply hex_val_high, Hb.
    + destruct (utf8_char_head h Hh) as (b & r & -> & Hb). cbn [app].
      destruct (r ++ flat_map utf8_char s); [exact I|]. left. apply hex_val_high, Hb.
  - apply npx_app_high; [apply utf8_char_high, Hc|apply IH, H2].
Qed.

Lemma escape_ascii bs : Forall (fun b => b < 256) bs ->
  forallb (fun c => c <? 0x80) (flat_map escape bs) = true.
Proof.
  induction 1 as [|b r Hb _ IH]; [reflexivity|]. cbn [flat_map]. rewrite forallb_app, IH, andb_true_r.
  unfold escape. destruct (should_encode b) eqn:E.
  - unfold pct_byte, hex_char_upper.
    assert (b / 16 < 16) by (apply N.div_lt_upper_bound; lia).
    assert (b mod 16 < 16) by (apply N.mod_lt; lia).
    cbn [forallb]. destruct (N.ltb_spec (b / 16) 10), (N.ltb_spec (b mod 16) 10);
      rewrite ?andb_true_iff; repeat split; lia.
  - unfold should_encode in E. cbn [forallb]. apply orb_false_iff in E as [E _].
    apply negb_false_iff in E. rewrite E. reflexivity.
Qed.

Lemma pct_roundtrip s : wf_str s = true -> no_escape s -> pct_decode_str (pct_encode s) = Some s.
Proof.
  intros Hwf Hn. unfold pct_decode_str, pct_encode.
  change (fun b => if should_encode b then pct_byte b else [b]) with escape.
  rewrite utf8_ascii by (apply escape_ascii, utf8_bytes, Hwf).
  rewrite pct_decode_encoded.
  - apply utf8_roundtrip, Hwf.
  - apply utf8_bytes, Hwf.
  - apply npx_utf8, no_escape_npx, Hn.
Qed.

Lemma pct_raw_roundtrip s : wf_str s = true -> no_escape s -> pct_decode_str s = Some s.
Proof.
  intros Hwf Hn. unfold pct_decode_str. rewrite pct_decode_raw by (apply npx_utf8, no_escape_npx, Hn).
  apply utf8_roundtrip, Hwf.
Qed.

Lemma pct_encode_lacks c s : wf_str s = true -> In c [COMMA; SEMI; EQUALS] -> lacks c (pct_encode s).
Proof.
  intros Hwf Hc Hin. unfold pct_encode in Hin. apply in_flat_map in Hin as (b & Hb & Hin).
  assert (b < 256) as Hb2.
  { pose proof (utf8_bytes s Hwf) as H. rewrite List.Forall_forall in H. apply H, Hb. }
  assert (c = 44 \/ c = 59 \/ c = 61) as Hc2.
  { unfold COMMA, SEMI, EQUALS in Hc. cbn in Hc. destruct Hc as [<-|[<-|[<-|[]]]]; tauto. }
  destruct (should_encode b) eqn:E.
  - unfold pct_byte in Hin.
    assert (b / 16 < 16) by (apply N.div_lt_upper_bound; lia).
    assert (b mod 16 < 16) by (apply N.mod_lt; lia).
    unfold hex_char_upper in Hin.
    destruct (N.ltb_spec (b / 16) 10), (N.ltb_spec (b mod 16) 10);
      destruct Hin as [<-|[<-|[<-|[]]]]; lia.
  - destruct Hin as [<-|[]]. unfold should_encode, in_fragment in E. lia.
Qed.

(** * The propagator *)

Definition wf_entry (e : str * bg_entry) : Prop :=
  wf_str (fst e) = true /\ wf_str (fst (snd e)) = true /\ wf_str (snd (snd e)) = true.

Lemma wf_split c s p : wf_str s = true -> In p (split c s) -> wf_str p = true.
Proof.
  unfold wf_str. rewrite !forallb_forall. intros H Hp x Hx. apply H. eapply split_piece_incl; eassumption.
Qed.

Lemma no_escape_piece c s p : no_escape s -> In p (split c s) -> no_escape p.
Proof.
  revert p. 
  assert (forall s p, In p (split c s) -> exists a b, s = a ++ p ++ b) as H.
  { clear s. induction s as [|x s IH]; intros p; cbn [split].
    - intros [<-|[]]. exists [], []. reflexivity.
    - destruct (x =? c).
      + intros [<-|Hin]; [exists [], (x :: s); reflexivity|].
        destruct (IH _ Hin) as (a & b & ->). exists (x :: a), b. reflexivity.
      + pose proof (join_split c s) as Hj. pose proof (split_nonempty c s) as Hne.
        destruct (split c s) as [|q qs]; [contradiction|]. intros [<-|Hin].
        * assert (exists b, s = q ++ b) as [b ->].
          { rewrite <- Hj. destruct qs; [exists []; cbn; rewrite app_nil_r; reflexivity|].
            eexists. reflexivity. }
          exists [], b. reflexivity.
        * destruct (IH p (or_intror Hin)) as (a & b & ->). exists (x :: a), b. reflexivity. }
  intros p Hn Hp a h l b E. destruct (H _ _ Hp) as (u & v & ->).
  apply (Hn (u ++ a) h l (b ++ v)). rewrite E, <- !app_assoc. cbn [app]. reflexivity.
Qed.

Lemma token_not_ws c : token_char c -> is_ws c = false.
Proof. intros [H _]. unfold is_ws, between. lia. Qed.

Lemma trim_key k : permitted_key k -> trim k = k.
Proof.
  intros [_ H]. apply trim_no_ws. apply forallb_forall. intros c Hc.
  rewrite List.Forall_forall in H. rewrite (token_not_ws c (H c Hc)). reflexivity.
Qed.

Lemma trim_meta m : Forall (fun p => trim p = p) (split SEMI m) -> trim m = m -> True.
Proof. trivial. Qed.

Lemma item_roundtrip k v m :
  wf_entry (k, (v, m)) -> permitted_key k -> key_representable k ->
  value_representable v -> meta_representable m -> trim m = m ->
  bg_parse_item (bg_item_header (k, (v, m))) = Some (k, (v, m)).
Proof.
  intros (Hwk & Hwv & Hwm) Hk Hkr [Htv Hvr] (Hmc & Hmr & Hmp) Htm. cbn [fst snd] in *.
  unfold bg_item_header. rewrite (trim_key k Hk), Htv, Htm.
  unfold bg_parse_item.
  assert (lacks SEMI (pct_encode k ++ [EQUALS] ++ pct_encode v)) as Hls.
  { intros Hin. apply in_app_or in Hin as [Hin|Hin].
    - eapply (pct_encode_lacks SEMI); [exact Hwk| |exact Hin]. cbn. tauto.
    - cbn [app] in Hin. destruct Hin as [Hin|Hin]; [discriminate|].
      eapply (pct_encode_lacks SEMI); [exact Hwv| |exact Hin]. cbn. tauto. }
  assert (split EQUALS (pct_encode k ++ [EQUALS] ++ pct_encode v) = [pct_encode k; pct_encode v]) as Hse.
  { cbn [app]. rewrite split_app by (apply pct_encode_lacks; [exact Hwk|cbn; tauto]).
    rewrite split_lacks by (apply pct_encode_lacks; [exact Hwv|cbn; tauto]). reflexivity. }
  destruct m as [|x m'].
  - cbn [app]. rewrite app_nil_r.
    change (pct_encode k ++ EQUALS :: pct_encode v) with (pct_encode k ++ [EQUALS] ++ pct_encode v).
    rewrite split_lacks by exact Hls. rewrite Hse.
    rewrite !pct_roundtrip by assumption. cbn [flat_map map join].
    rewrite (trim_key k Hk), Htv. reflexivity.
  - set (m := x :: m') in *.
    assert (pct_encode k ++ [EQUALS] ++ pct_encode v ++ [SEMI] ++ m =
            (pct_encode k ++ [EQUALS] ++ pct_encode v) ++ SEMI :: m) as ->.
    { rewrite <- !app_assoc. reflexivity. }
    rewrite split_app by exact Hls. rewrite Hse.
    rewrite !pct_roundtrip by assumption.
    rewrite (trim_key k Hk), Htv. repeat f_equal.
    assert (forall p, In p (split SEMI m) -> pct_decode_str p = Some p) as Hp.
    { intros p Hp. apply pct_raw_roundtrip; [eapply wf_split; eassumption|].
      eapply no_escape_piece; eassumption. }
    assert (flat_map (fun p => match pct_decode_str p with Some q => [q] | None => [] end) (split SEMI m)
            = split SEMI m) as ->.
    { clear - Hp. induction (split SEMI m) as [|p l IH]; [reflexivity|]. cbn [flat_map].
      rewrite (Hp p) by (left; reflexivity). rewrite IH; [reflexivity|].
      intros q Hq. apply Hp. right. exact Hq. }
    assert (map trim (split SEMI m) = split SEMI m) as ->.
    { clear - Hmp. induction Hmp as [|p l H _ IH]; [reflexivity|]. cbn [map]. congruence. }
    apply join_split.
Qed.

Lemma item_lacks_comma k v m :
  wf_entry (k, (v, m)) -> ~ In COMMA m -> lacks COMMA (bg_item_header (k, (v, m))) .
Proof.
  intros (Hwk & Hwv & Hwm) Hm Hin. cbn [fst snd] in *. unfold bg_item_header in Hin.
  assert (forall s, wf_str s = true -> wf_str (trim s) = true) as Hwt.
  { intros s. unfold wf_str. rewrite !forallb_forall. intros H y Hy. apply H.
    unfold trim, trim_end, trim_start in Hy. apply in_rev in Hy.
    destruct (drop_while_suffix is_ws (rev (drop_while is_ws s))) as (a & Ha & _).
    destruct (drop_while_suffix is_ws s) as (a2 & Ha2 & _).
    rewrite Ha2. apply in_or_app. right. apply in_rev. rewrite Ha. apply in_or_app. right. exact Hy. }
  apply in_app_or in Hin as [Hin|Hin].
  { eapply (pct_encode_lacks COMMA); [apply Hwt, Hwk| |exact Hin]. cbn. tauto. }
  cbn [app] in Hin. destruct Hin as [Hin|Hin]; [discriminate|].
  apply in_app_or in Hin as [Hin|Hin].
  { eapply (pct_encode_lacks COMMA); [apply Hwt, Hwv| |exact Hin]. cbn. tauto. }
  apply in_app_or in Hin as [Hin|Hin].
  { destruct (trim m); [destruct Hin|]. destruct Hin as [Hin|[]]. discriminate. }
  apply Hm. unfold trim, trim_end, trim_start in Hin. apply in_rev in Hin.
  destruct (drop_while_suffix is_ws (rev (drop_while is_ws m))) as (a & Ha & _).
  destruct (drop_while_suffix is_ws m) as (a2 & Ha2 & _).
  rewrite Ha2. apply in_or_app. right. apply in_rev. rewrite Ha. apply in_or_app. right. exact Hin.
Qed.

Lemma flat_map_some {A B} (f : A -> option B) (g : B -> A) l :
  (forall x, In x l -> f (g x) = Some x) ->
  flat_map (fun i => match f i with Some e => [e] | None => [] end) (map g l) = l.
Proof.
  induction l as [|x l IH]; intros H; [reflexivity|]. cbn [map flat_map].
  rewrite (H x) by (left; reflexivity). cbn [app]. f_equal. apply IH.
  intros y Hy. apply H. right. exact Hy.
Qed.

(** Inserting fresh, permitted, small enough items one by one. *)
Lemma from_items l : forall b rem,
  BInv rem b -> rem = 0 ->
  (forall k e, In (k, e) l -> bg_map b !! k = None) ->
  NoDup (map fst l) ->
  (forall k v m, In (k, (v, m)) l -> permitted_key k /\ trim m = m) ->
  N.of_nat (size (bg_map b)) + N.of_nat (length l) <= 64 ->
  content (bg_map b) + fold_right (fun e acc => esize e + acc) 0 l <= 8192 ->
  bg_map (fold_left (fun b e => fst (bg_insert b (fst e) (fst (snd e)) (snd (snd e)))) l b) =
  list_to_map l ∪ bg_map b.
Proof.
  induction l as [|[k [v m]] l IH]; intros b rem HI Hrem Hfresh Hnd Hok Hsize Hcont.
  { cbn [fold_left list_to_map foldr]. symmetry. apply (left_id_L ∅ (∪)). }
  cbn [fold_left fst snd]. subst rem.
  assert (bg_map b !! k = None) as Hk by (eapply Hfresh; left; reflexivity).
  destruct (Hok k v m (or_introl eq_refl)) as [Hpk Htm].
  cbn [fold_right length map fst] in *. unfold esize at 1 in Hcont. cbn [fst snd] in Hcont.
  pose proof (BInv_insert 0 b k v m HI) as HI'.
  pose proof (content_insert_new _ k v m Hk) as Hci.
  destruct (insert_cases 0 b k v m HI) as [[Ha Hins]|[Ha _]].
  2:{ exfalso. apply Ha. unfold accepts. rewrite Hk. split; [exact Hpk|].
      destruct HI as [H1 _ _ _]. rewrite Htm. unfold kvm_size, MAX_PAIRS, MAX_LEN. split; lia. }
  rewrite Hins in HI' |- *. cbn [fst] in HI' |- *. rewrite Htm in HI' |- *.
  apply NoDup_cons in Hnd as [Hnd1 Hnd2].
  rewrite (IH _ 0 HI' eq_refl); cbn [bg_map].
  - cbn [list_to_map foldr fst snd].
    rewrite <- insert_union_r by
      (apply not_elem_of_list_to_map; exact Hnd1).
    rewrite insert_union_l. reflexivity.
  - intros k' e Hin. rewrite lookup_insert_ne; [eapply Hfresh; right; exact Hin|].
    intros <-. apply Hnd1. apply elem_of_list_In. apply in_map_iff. exists (k, e). split; [reflexivity|exact Hin].
  - exact Hnd2.
  - intros k' v' m' Hin. apply (Hok k' v' m'). right. exact Hin.
  - rewrite map_size_insert_None by exact Hk. lia.
  - unfold kvm_size in Hci. lia.
Qed.

(** ** Strings of a run are well formed, metadata is trimmed *)

Lemma wf_trim s : wf_str s = true -> wf_str (trim s) = true.
Proof.
  unfold wf_str. rewrite !forallb_forall. intros H y Hy. apply H.
  unfold trim, trim_end, trim_start in Hy. apply in_rev in Hy.
  destruct (drop_while_suffix is_ws (rev (drop_while is_ws s))) as (a & Ha & _).
  destruct (drop_while_suffix is_ws s) as (a2 & Ha2 & _).
  rewrite Ha2. apply in_or_app. right. apply in_rev. rewrite Ha. apply in_or_app. right. exact Hy.
Qed.

Lemma run_wf ops b : Forall (fun o => op_wf o = true) ops ->
  (forall k e, bg_map b !! k = Some e -> wf_entry (k, e) /\ trim (snd e) = snd e) ->
  forall k e, bg_map (fold_left bg_step ops b) !! k = Some e -> wf_entry (k, e) /\ trim (snd e) = snd e.
Proof.
  intros Hall. revert b. induction Hall as [|o ops Ho _ IH]; intros b Hb; [exact Hb|].
  cbn [fold_left]. apply IH. clear IH. intros k e. destruct o as [k' v m|k']; cbn [bg_step].
  - assert (bg_map (fst (bg_insert b k' v m)) = bg_map b \/
            bg_map (fst (bg_insert b k' v m)) = <[k' := (v, trim m)]> (bg_map b)) as Hc.
    { unfold bg_insert, metadata_from. destruct (bg_map b !! k') as [[pv pm]|].
      - destruct (_ <? _); [left|right]; reflexivity.
      - destruct (negb _); [left; reflexivity|]. destruct (_ =? _); [left; reflexivity|].
        destruct (_ <? _); [left|right]; reflexivity. }
    destruct Hc as [->| ->]; [apply Hb|].
    destruct (decide (k' = k)) as [->|Hne].
    + rewrite lookup_insert. intros [= <-]. cbn [op_wf] in Ho.
      apply andb_true_iff in Ho as [Ho H3]. apply andb_true_iff in Ho as [H1 H2].
      split; [|apply trim_idem]. split; [exact H1|]. split; [exact H2|]. cbn [snd]. apply wf_trim, H3.
    + rewrite lookup_insert_ne by exact Hne. apply Hb.
  - cbn [bg_remove fst bg_map]. intros H. apply lookup_delete_Some in H as [_ H]. apply Hb, H.
Qed.

(** * C08 *)

Lemma roundtrip ops items :
  Forall (fun o => op_wf o = true) ops ->
  representable (bg_map (bg_run ops)) ->
  items ≡ₚ map_to_list (bg_map (bg_run ops)) ->
  match bg_inject (bg_run ops) items with
  | Some header => bg_map (bg_extract header) = bg_map (bg_run ops)
  | None => bg_map (bg_run ops) = ∅
  end.
Proof.
  intros Hops Hrep Hperm. set (b := bg_run ops) in *.
  destruct (BInv_reach ops) as [Hlen Hmax Hsize Hkeys]. fold b in Hlen, Hmax, Hsize, Hkeys.
  assert (forall k e, bg_map b !! k = Some e -> wf_entry (k, e) /\ trim (snd e) = snd e) as Hwf.
  { apply (run_wf ops bg_new Hops). intros k e H. cbn [bg_map bg_new] in H; rewrite lookup_empty in H. discriminate. }
  unfold bg_inject, bg_is_empty. destruct (Nat.eqb_spec (size (bg_map b)) 0) as [He|Hne].
  { apply map_size_empty_inv. exact He. }
  unfold bg_extract.
  assert (forall k e, In (k, e) items -> bg_map b !! k = Some e) as Hin.
  { intros k e H. apply elem_of_map_to_list. rewrite <- Hperm. apply elem_of_list_In. exact H. }
  assert (length items = size (bg_map b)) as Hl.
  { rewrite Hperm. reflexivity. }
  assert (forall e, In e items -> lacks COMMA (bg_item_header e)) as Hcomma.
  { intros [k [v m]] He. apply Hin in He. destruct (Hwf _ _ He) as [Hw _].
    destruct (Hrep _ _ _ He) as (_ & _ & Hm & _). apply item_lacks_comma; assumption. }
  rewrite split_join.
  2:{ destruct items as [|e items]; [cbn in Hl; congruence|]. discriminate. }
  2:{ apply List.Forall_forall. intros h Hh. apply in_map_iff in Hh as (e & <- & He). apply Hcomma, He. }
  rewrite flat_map_some.
  2:{ intros [k [v m]] He. apply Hin in He. destruct (Hwf _ _ He) as [Hw Ht].
      destruct (Hrep _ _ _ He) as (H1 & H2 & H3). apply item_roundtrip; try assumption.
      eapply Hkeys, He. }
  unfold bg_from_iter. rewrite (from_items items bg_new 0 BInv_new eq_refl).
  - cbn [bg_map bg_new]. rewrite (right_id_L ∅ (∪)).
    rewrite (list_to_map_proper items (map_to_list (bg_map b))); [apply list_to_map_to_list| |exact Hperm].
    rewrite Hperm. apply NoDup_fst_map_to_list.
  - intros k e _. apply lookup_empty.
  - change (map fst items) with (items.*1). rewrite Hperm. apply NoDup_fst_map_to_list.
  - intros k v m H. apply Hin in H. destruct (Hwf _ _ H) as [_ Ht]. split; [eapply Hkeys, H|exact Ht].
  - cbn [bg_map bg_new]. rewrite map_size_empty, Hl. unfold MAX_PAIRS in Hsize. lia.
  - cbn [bg_map bg_new]. rewrite content_empty. rewrite (sum_perm _ _ Hperm), <- content_sum.
    unfold MAX_LEN in *. lia.
Qed.

(** * Extraction and the limits *)

Lemma extract_limits header :
  let b := bg_extract header in
  (size (bg_map b) <= 64)%nat /\ content (bg_map b) <= 8192 /\
  forall k e, bg_map b !! k = Some e -> permitted_key k.
Proof. cbn zeta. unfold bg_extract. rewrite from_iter_run. apply limits. Qed.

(** * Refutations *)

Lemma utf8_repeat n : utf8 (repeat 97 n) = repeat 97 n.
Proof. apply utf8_ascii. induction n; [reflexivity|]. cbn. exact IHn. Qed.

Lemma blen_repeat n : blen (repeat 97 n) = N.of_nat n.
Proof. unfold blen. rewrite utf8_repeat, repeat_length. reflexivity. Qed.

Definition k_a : str := [97].
Definition big : str := repeat 97 (N.to_nat 5000).

Lemma big_len : kvm_size k_a big (trim []) = 5001.
Proof. unfold kvm_size, big. rewrite blen_repeat, N2Nat.id. reflexivity. Qed.

Lemma k_a_permitted : permitted_key k_a.
Proof. apply is_key_valid_spec. reflexivity. Qed.

(** After inserting and removing a 5001 byte entry the baggage is empty, yet
    the same insert is rejected; into a fresh baggage it is accepted. *)
Lemma remove_leaks :
  let ops := [BInsert k_a big []; BRemove k_a] in
  bg_map (bg_run ops) = bg_map (bg_run []) /\
  bg_get (fst (bg_insert (bg_run []) k_a big [])) k_a = Some big /\
  bg_get (fst (bg_insert (bg_run ops) k_a big [])) k_a = None.
Proof.
  cbn zeta.
  assert (bg_insert bg_new k_a big [] = (mk_baggage {[ k_a := (big, []) ]} 5001, None)) as Hins.
  { unfold bg_insert, metadata_from. cbn [bg_map bg_new bg_len]. rewrite lookup_empty.
    replace (is_key_valid (utf8 k_a)) with true by reflexivity. cbn [negb].
    rewrite map_size_empty. cbn [N.of_nat]. change (0 =? MAX_PAIRS) with false. cbv iota.
    rewrite N.add_0_l, big_len. change (MAX_LEN <? 5001) with false. reflexivity. }
  assert (bg_run [BInsert k_a big []; BRemove k_a] = mk_baggage ∅ 5001) as Hr.
  { cbn [bg_run fold_left bg_step]. rewrite Hins. unfold bg_remove. cbn [fst bg_map bg_len].
    f_equal. apply delete_singleton. }
  rewrite Hr. change (bg_run []) with bg_new. split; [reflexivity|]. split.
  - rewrite Hins. unfold bg_get. cbn [fst bg_map]. rewrite lookup_singleton. reflexivity.
  - unfold bg_insert, metadata_from. cbn [bg_map bg_len]. rewrite lookup_empty.
    replace (is_key_valid (utf8 k_a)) with true by reflexivity. cbn [negb].
    rewrite map_size_empty. cbn [N.of_nat]. change (0 =? MAX_PAIRS) with false. cbv iota.
    rewrite big_len. change (MAX_LEN <? 5001 + 5001) with true. cbv iota. unfold bg_get. cbn [fst bg_map].
    rewrite lookup_empty. reflexivity.
Qed.

(** * Baggage in a context *)

Lemma cx_get_with_value {S V} t v t' (c : context S V) :
  cx_get t' (cx_with_value t v c) = if N.eqb t t' then Some v else cx_get t' c.
Proof.
  unfold cx_get, cx_with_value. cbn [cx_entries].
  destruct (N.eqb_spec t t') as [->|Hne].
  - destruct (cx_entries c) as [m|]; rewrite lookup_insert; unfold downcast; cbn [any_type any_val];
      rewrite N.eqb_refl; reflexivity.
  - destruct (cx_entries c) as [m|]; rewrite lookup_insert_ne by exact Hne; reflexivity.
Qed.

Lemma with_baggage_get {S} (c : context S baggage) b : cx_baggage (cx_with_baggage c b) = b.
Proof. unfold cx_baggage, cx_with_baggage. rewrite cx_get_with_value. reflexivity. Qed.

Lemma cleared_noop {S} (c : context S baggage) :
  cx_baggage (cx_with_cleared_baggage c) = cx_baggage c.
Proof. unfold cx_baggage, cx_with_cleared_baggage. rewrite cx_get_with_value. reflexivity. Qed.

(** * Display *)

Definition disp_plain (b : N) : bool :=
  is_lower b || is_upper b || is_digit b || (b =? 46) || (b =? 45) || (b =? 95) || (b =? 126).
Definition disp_escape (b : N) : list N :=
  if disp_plain b then [b] else if b =? 32 then [37; 50; 48] else pct_byte b.

Lemma disp_encode_eq s : disp_encode s = flat_map disp_escape (utf8 s).
Proof. reflexivity. Qed.

Lemma disp_decode bs : Forall (fun b => b < 256) bs -> pct_decode (flat_map disp_escape bs) = bs.
Proof.
  induction 1 as [|b r Hb _ IH]; [reflexivity|]. cbn [flat_map]. unfold disp_escape at 1.
  destruct (disp_plain b) eqn:E.
  - cbn [app]. rewrite pct_decode_unfold; [congruence|].
    unfold disp_plain, is_lower, is_upper, is_digit, between in E. lia.
  - destruct (N.eqb_spec b 32) as [->|_].
    + change [37; 50; 48] with (pct_byte 32). rewrite pct_decode_byte by lia. congruence.
    + rewrite pct_decode_byte by exact Hb. congruence.
Qed.

Lemma disp_chars bs c : Forall (fun b => b < 256) bs -> In c (flat_map disp_escape bs) ->
  disp_plain c = true \/ c = 37.
Proof.
  intros Hall Hin. apply in_flat_map in Hin as (b & Hb & Hin). rewrite List.Forall_forall in Hall.
  apply Hall in Hb. unfold disp_escape in Hin. destruct (disp_plain b) eqn:E.
  - destruct Hin as [<-|[]]. left. exact E.
  - destruct (N.eqb_spec b 32) as [->|_].
    + destruct Hin as [<-|[<-|[<-|[]]]]; [right; reflexivity|left; reflexivity..].
    + unfold pct_byte in Hin.
      assert (b / 16 < 16) by (apply N.div_lt_upper_bound; lia).
      assert (b mod 16 < 16) by (apply N.mod_lt; lia).
      destruct Hin as [<-|[<-|[<-|[]]]]; [right; reflexivity|left..];
        unfold hex_char_upper, disp_plain, is_lower, is_upper, is_digit, between.
      * destruct (N.ltb_spec (b / 16) 10); lia.
      * destruct (N.ltb_spec (b mod 16) 10); lia.
Qed.

Lemma disp_roundtrip s : wf_str s = true -> pct_decode_str (disp_encode s) = Some s.
Proof.
  intros Hwf. unfold pct_decode_str. rewrite disp_encode_eq.
  rewrite utf8_ascii.
  - rewrite disp_decode by (apply utf8_bytes, Hwf). apply utf8_roundtrip, Hwf.
  - apply forallb_forall. intros c Hc. apply disp_chars in Hc; [|apply utf8_bytes, Hwf].
    destruct Hc as [Hc| ->]; [|reflexivity].
    unfold disp_plain, is_lower, is_upper, is_digit, between in Hc. lia.
Qed.

Lemma disp_lacks s c : wf_str s = true -> In c [COMMA; SEMI; EQUALS] -> lacks c (disp_encode s).
Proof.
  intros Hwf Hc Hin. rewrite disp_encode_eq in Hin. apply disp_chars in Hin; [|apply utf8_bytes, Hwf].
  unfold COMMA, SEMI, EQUALS in Hc. cbn in Hc.
  unfold disp_plain, is_lower, is_upper, is_digit, between in Hin.
  destruct Hc as [<-|[<-|[<-|[]]]]; lia.
Qed.

Lemma key_lacks k c : permitted_key k -> In c [COMMA; SEMI; EQUALS] -> lacks c k.
Proof.
  intros [_ Hk] Hc Hin. rewrite List.Forall_forall in Hk. destruct (Hk c Hin) as [_ Hn]. apply Hn.
  cbn in Hc. destruct Hc as [<-|[<-|[<-|[]]]]; vm_compute; tauto.
Qed.

Lemma disp_item_roundtrip k v m :
  wf_entry (k, (v, m)) -> permitted_key k -> key_representable k -> meta_representable m ->
  bg_parse_item (bg_display_item (k, (v, m))) = Some (k, (trim v, m)).
Proof.
  intros (Hwk & Hwv & Hwm) Hk Hkr (Hmc & Hmr & Hmp). cbn [fst snd] in *.
  unfold bg_display_item; cbn [fst snd]. unfold bg_parse_item.
  assert (lacks SEMI (k ++ [EQUALS] ++ disp_encode v)) as Hls.
  { intros Hin. apply in_app_or in Hin as [Hin|Hin].
    - eapply (key_lacks k SEMI); [exact Hk| |exact Hin]. cbn. tauto.
    - cbn [app] in Hin. destruct Hin as [Hin|Hin]; [discriminate|].
      eapply (disp_lacks v SEMI); [exact Hwv| |exact Hin]. cbn. tauto. }
  assert (split EQUALS (k ++ [EQUALS] ++ disp_encode v) = [k; disp_encode v]) as Hse.
  { cbn [app]. rewrite split_app by (apply key_lacks; [exact Hk|cbn; tauto]).
    rewrite split_lacks by (apply disp_lacks; [exact Hwv|cbn; tauto]). reflexivity. }
  destruct m as [|x m'].
  - cbn [app]. rewrite app_nil_r.
    change (k ++ EQUALS :: disp_encode v) with (k ++ [EQUALS] ++ disp_encode v).
    rewrite split_lacks by exact Hls. rewrite Hse.
    rewrite disp_roundtrip, pct_raw_roundtrip by assumption. cbn [flat_map map join].
    rewrite (trim_key k Hk). reflexivity.
  - set (m := x :: m') in *.
    assert (k ++ [EQUALS] ++ disp_encode v ++ SEMI :: m =
            (k ++ [EQUALS] ++ disp_encode v) ++ SEMI :: m) as ->.
    { rewrite <- !app_assoc. reflexivity. }
    rewrite split_app by exact Hls. rewrite Hse.
    rewrite disp_roundtrip, pct_raw_roundtrip by assumption.
    rewrite (trim_key k Hk). repeat f_equal.
    assert (forall p, In p (split SEMI m) -> pct_decode_str p = Some p) as Hp.
    { intros p Hp. apply pct_raw_roundtrip; [eapply wf_split; eassumption|].
      eapply no_escape_piece; eassumption. }
    assert (flat_map (fun p => match pct_decode_str p with Some q => [q] | None => [] end) (split SEMI m)
            = split SEMI m) as ->.
    { clear - Hp. induction (split SEMI m) as [|p l IH]; [reflexivity|]. cbn [flat_map].
      rewrite (Hp p) by (left; reflexivity). rewrite IH; [reflexivity|].
      intros q Hq. apply Hp. right. exact Hq. }
    assert (map trim (split SEMI m) = split SEMI m) as ->.
    { clear - Hmp. induction Hmp as [|p l H _ IH]; [reflexivity|]. cbn [map]. congruence. }
    apply join_split.
Qed.

Lemma disp_item_lacks_comma k v m :
  wf_entry (k, (v, m)) -> permitted_key k -> ~ In COMMA m -> lacks COMMA (bg_display_item (k, (v, m))).
Proof.
  intros (Hwk & Hwv & Hwm) Hk Hm Hin. unfold bg_display_item in Hin. cbn [fst snd] in *.
  apply in_app_or in Hin as [Hin|Hin].
  { eapply (key_lacks k COMMA); [exact Hk| |exact Hin]. cbn. tauto. }
  cbn [app] in Hin. destruct Hin as [Hin|Hin]; [discriminate|].
  apply in_app_or in Hin as [Hin|Hin].
  { eapply (disp_lacks v COMMA); [exact Hwv| |exact Hin]. cbn. tauto. }
  destruct m as [|x m]; [destruct Hin|]. destruct Hin as [Hin|Hin]; [discriminate|]. exact (Hm Hin).
Qed.

Lemma display_roundtrip ops items :
  Forall (fun o => op_wf o = true) ops ->
  (forall k v md, bg_map (bg_run ops) !! k = Some (v, md) ->
     key_representable k /\ trim v = v /\ meta_representable md) ->
  items ≡ₚ map_to_list (bg_map (bg_run ops)) -> items <> [] ->
  bg_map (bg_extract (bg_display items)) = bg_map (bg_run ops).
Proof.
  intros Hops Hrep Hperm Hne. set (b := bg_run ops) in *.
  destruct (BInv_reach ops) as [Hlen Hmax Hsize Hkeys]. fold b in Hlen, Hmax, Hsize, Hkeys.
  assert (forall k e, bg_map b !! k = Some e -> wf_entry (k, e) /\ trim (snd e) = snd e) as Hwf.
  { apply (run_wf ops bg_new Hops). intros k e H. cbn [bg_map bg_new] in H.
    rewrite lookup_empty in H. discriminate. }
  assert (forall k e, In (k, e) items -> bg_map b !! k = Some e) as Hin.
  { intros k e H. apply elem_of_map_to_list. rewrite <- Hperm. apply elem_of_list_In. exact H. }
  assert (length items = size (bg_map b)) as Hl.
  { rewrite Hperm. reflexivity. }
  unfold bg_display, bg_extract.
  rewrite split_join.
  2:{ destruct items; [contradiction|discriminate]. }
  2:{ apply List.Forall_forall. intros h Hh. apply in_map_iff in Hh as ([k [v m]] & <- & He).
      apply Hin in He. destruct (Hwf _ _ He) as [Hw _]. destruct (Hrep _ _ _ He) as (_ & _ & Hm & _).
      apply disp_item_lacks_comma; try assumption. eapply Hkeys, He. }
  rewrite flat_map_some.
  2:{ intros [k [v m]] He. apply Hin in He. destruct (Hwf _ _ He) as [Hw Ht].
      destruct (Hrep _ _ _ He) as (H1 & H2 & H3). rewrite disp_item_roundtrip; try assumption.
      - rewrite H2. reflexivity.
      - eapply Hkeys, He. }
  unfold bg_from_iter. rewrite (from_items items bg_new 0 BInv_new eq_refl).
  - cbn [bg_map bg_new]. rewrite (right_id_L ∅ (∪)).
    rewrite (list_to_map_proper items (map_to_list (bg_map b))); [apply list_to_map_to_list| |exact Hperm].
    rewrite Hperm. apply NoDup_fst_map_to_list.
  - intros k e _. apply lookup_empty.
  - change (map fst items) with (items.*1). rewrite Hperm. apply NoDup_fst_map_to_list.
  - intros k v m H. apply Hin in H. destruct (Hwf _ _ H) as [_ Ht]. split; [eapply Hkeys, H|exact Ht].
  - cbn [bg_map bg_new]. rewrite map_size_empty, Hl. unfold MAX_PAIRS in Hsize. lia.
  - cbn [bg_map bg_new]. rewrite content_empty. rewrite (sum_perm _ _ Hperm), <- content_sum.
    unfold MAX_LEN in *. lia.
Qed.

(** A decision procedure for [no_escape], for concrete cases. *)
Fixpoint npxb (bs : list N) : bool :=
  match bs with
  | [] => true
  | b :: r =>
    negb (b =? 37) || match r with
                      | h :: l :: _ => match hex_val h, hex_val l with Some _, Some _ => false | _, _ => true end
                      | _ => true end
  end && match bs with [] => true | _ :: r => npxb r end.

Lemma npxb_ok s : npxb s = true -> no_escape s.
Proof.
  rewrite no_escape_npx. induction s as [|b r IH]; [intros; exact I|].
  cbn [npxb]. intros H. apply andb_true_iff in H as [H1 H2]. cbn [npx]. split; [|apply IH, H2].
  intros ->. rewrite N.eqb_refl in H1. cbn [negb orb] in H1. destruct r as [|h [|l r]]; try exact I.
  destruct (hex_val h); [|left; reflexivity]. destruct (hex_val l); [discriminate|right; reflexivity].
Qed.

(** Witnesses. *)
Lemma clear_refuted :
  exists c : context unit baggage,
    size (bg_map (cx_baggage (cx_with_cleared_baggage c))) = 1%nat.
Proof.
  exists (cx_with_baggage cx_new (fst (bg_insert bg_new (of_string "k"%string) (of_string "v"%string) []))).
  vm_compute. reflexivity.
Qed.

Lemma percent_refuted :
  exists ops,
    Forall (fun o => op_wf o = true) ops /\
    bg_get (bg_run ops) (of_string "k"%string) = Some (of_string "100%25"%string) /\
    match bg_inject (bg_run ops) (map_to_list (bg_map (bg_run ops))) with
    | Some header => bg_get (bg_extract header) (of_string "k"%string) = Some (of_string "100%"%string)
    | None => False
    end.
Proof.
  exists [BInsert (of_string "k"%string) (of_string "100%25"%string) []].
  split; [repeat constructor|]. split; vm_compute; reflexivity.
Qed.
