From Coq Require Import String List Arith NArith Bool Lia.
From Coq Require Import ZifyBool ZifyNat ZifyN.
From Verif Require Import Str StrProofs TraceModel TraceSpec.
Import ListNotations.
Local Open Scope N_scope.

(** * Hexadecimal fields *)

Lemma hex_val_spec c : hex_val c = hex_digit_value c.
Proof.
  unfold hex_val, hex_digit_value, is_digit, between.
  destruct ((48 <=? c) && (c <=? 57)); [reflexivity|].
  destruct ((97 <=? c) && (c <=? 102)) eqn:E; [f_equal; lia|].
  destruct ((65 <=? c) && (c <=? 70)) eqn:E2; [f_equal; lia|reflexivity].
Qed.

Lemma hex_value_snoc s c : hex_value (s ++ [c]) =
  match hex_digit_value c, hex_value s with Some d, Some v => Some (d + 16 * v) | _, _ => None end.
Proof. unfold hex_value. rewrite rev_app_distr. reflexivity. Qed.

Lemma hex_digits_spec b s : 0 < b ->
  hex_digits b 0 s = match hex_value s with Some v => if v <? b then Some v else None | None => None end.
Proof.
  intros Hb. induction s as [|c s IH] using rev_ind.
  - cbn. destruct (N.ltb_spec 0 b); [reflexivity|lia].
  - rewrite hex_digits_app, IH, hex_value_snoc. cbn [hex_digits]. rewrite hex_val_spec.
    destruct (hex_value s) as [u|]; [|destruct (hex_digit_value c); reflexivity].
    destruct (hex_digit_value c) as [d|]; [|destruct (u <? b); reflexivity].
    destruct (N.ltb_spec u b).
    + replace (u * 16 + d) with (d + 16 * u) by lia. reflexivity.
    + destruct (N.ltb_spec (d + 16 * u) b); [lia|reflexivity].
Qed.

Lemma parse_hex_spec b s v : 0 < b -> parse_hex b s = Some v <-> hex_field s v /\ v < b.
Proof.
  intros Hb. unfold hex_field. split.
  - assert (forall s, hex_digits b 0 s = Some v -> hex_value s = Some v /\ v < b) as H.
    { intros t H. rewrite hex_digits_spec in H by exact Hb. destruct (hex_value t) as [u|]; [|discriminate].
      destruct (N.ltb_spec u b); [|discriminate]. injection H as ->. split; [reflexivity|assumption]. }
    unfold parse_hex. destruct s as [|c [|c' r]]; [discriminate| |].
    + destruct ((c =? 43) || (c =? 45)) eqn:E; [discriminate|]. intros Hd. apply H in Hd as [Hd Hv].
      split; [|exact Hv]. exists [], [c]. repeat split; [left; reflexivity|discriminate|exact Hd].
    + destruct (N.eqb_spec c 43) as [->|Hne]; intros Hd; apply H in Hd as [Hd Hv]; (split; [|exact Hv]).
      * exists [43], (c' :: r). repeat split; [right; reflexivity|discriminate|exact Hd].
      * exists [], (c :: c' :: r). repeat split; [left; reflexivity|discriminate|exact Hd].
  - intros [(sign & digits & -> & Hsign & Hne & Hv) Hvb].
    assert (hex_digits b 0 digits = Some v) as Hd.
    { rewrite hex_digits_spec by exact Hb. rewrite Hv. destruct (N.ltb_spec v b); [reflexivity|lia]. }
    destruct Hsign as [->| ->]; cbn [app].
    + destruct digits as [|c r]; [contradiction|]. unfold parse_hex.
      assert (hex_val c <> None) as Hc.
      { cbn [hex_digits] in Hd. destruct (hex_val c); [discriminate|]. discriminate. }
      destruct (N.eqb_spec c 43) as [->|_]; [exfalso; apply Hc; reflexivity|].
      destruct (N.eqb_spec c 45) as [->|_]; [exfalso; apply Hc; reflexivity|].
      destruct r; exact Hd.
    + destruct digits as [|c r]; [contradiction|]. unfold parse_hex. rewrite N.eqb_refl. exact Hd.
Qed.

(** * Identifiers *)

Lemma of_be_bytes_app a b : of_be_bytes (a ++ [b]) = of_be_bytes a * 256 + b.
Proof. unfold of_be_bytes. rewrite fold_left_app. reflexivity. Qed.

Lemma be_roundtrip w v : v < 256 ^ N.of_nat w -> of_be_bytes (be_bytes w v) = v.
Proof.
  revert v. induction w as [|w IH]; intros v H.
  - cbn in *. lia.
  - cbn [be_bytes]. rewrite of_be_bytes_app, IH.
    + pose proof (N.div_mod' v 256). lia.
    + rewrite Nat2N.inj_succ, N.pow_succ_r' in H. apply N.div_lt_upper_bound; lia.
Qed.

Lemma be_length w v : List.length (be_bytes w v) = w.
Proof. revert v. induction w as [|w IH]; intros v; cbn [be_bytes]; [reflexivity|].
  rewrite app_length, IH. cbn. lia. Qed.

Lemma be_byte_range w v : Forall (fun b => b < 256) (be_bytes w v).
Proof. revert v. induction w as [|w IH]; intros v; cbn [be_bytes]; [constructor|].
  apply Forall_app. split; [apply IH|]. constructor; [apply N.mod_lt; lia|constructor]. Qed.

Lemma be_roundtrip2 bs : Forall (fun b => b < 256) bs ->
  be_bytes (List.length bs) (of_be_bytes bs) = bs /\ of_be_bytes bs < 256 ^ N.of_nat (List.length bs).
Proof.
  induction bs as [|b bs IH] using rev_ind; intros H.
  - cbn. split; [reflexivity|lia].
  - apply Forall_app in H as [H Hb]. inversion Hb as [|? ? Hb' _]; subst. destruct (IH H) as [IH1 IH2].
    rewrite app_length. cbn [List.length]. rewrite Nat.add_1_r. cbn [be_bytes].
    rewrite of_be_bytes_app. rewrite Nat2N.inj_succ, N.pow_succ_r'.
    assert ((of_be_bytes bs * 256 + b) / 256 = of_be_bytes bs) as ->.
    { rewrite N.div_add_l by lia. rewrite N.div_small by lia. lia. }
    assert ((of_be_bytes bs * 256 + b) mod 256 = b) as ->.
    { rewrite N.add_comm, N.mod_add by lia. apply N.mod_small. lia. }
    rewrite IH1. split; [reflexivity|lia].
Qed.

Lemma trace_id_hex t : t < two128 -> trace_id_from_hex (trace_id_display t) = Some t.
Proof. intros H. apply parse_hex_pad; [exact H|exact H|lia]. Qed.
Lemma span_id_hex s : s < two64 -> span_id_from_hex (span_id_display s) = Some s.
Proof. intros H. apply parse_hex_pad; [exact H|exact H|lia]. Qed.

Lemma hex_pad_chars w v : Forall lower_hex_char (hex_pad w v).
Proof.
  apply Forall_forall. intros c Hc. pose proof (hex_pad_lhex w v) as H. rewrite forallb_forall in H.
  apply H in Hc. unfold is_lhex, is_digit, between in Hc. unfold lower_hex_char. lia.
Qed.

(** * Flags *)

Lemma land_1 f : N.land f 1 = f mod 2.
Proof. apply (N.land_ones f 1). Qed.

Lemma is_sampled_spec f : flags_is_sampled f = N.testbit f 0.
Proof.
  unfold flags_is_sampled, SAMPLED. rewrite land_1. rewrite N.bit0_odd.
  rewrite <- N.bit0_mod, N.bit0_odd. destruct (N.odd f); reflexivity.
Qed.

Lemma with_sampled_spec f s : f < 256 ->
  flags_is_sampled (flags_with_sampled f s) = s /\
  (forall i, 0 < i -> N.testbit (flags_with_sampled f s) i = N.testbit f i) /\
  flags_with_sampled f s < 256.
Proof.
  intros Hf. rewrite is_sampled_spec. unfold flags_with_sampled, SAMPLED.
  assert (f = N.land f (N.ones 8)) as Hones by (rewrite N.land_ones; symmetry; apply N.mod_small; exact Hf).
  destruct s; (split; [|split]).
  - rewrite N.lor_spec. apply orb_true_r.
  - intros i Hi. rewrite N.lor_spec. assert (N.testbit 1 i = false) as ->.
    { rewrite <- (N.ones_spec_high 1 i) by lia. reflexivity. }
    apply orb_false_r.
  - assert (N.lor f 1 = N.land (N.lor f 1) (N.ones 8)) as ->.
    { rewrite N.land_lor_distr_l, <- Hones. reflexivity. }
    rewrite N.land_ones. apply N.mod_lt. discriminate.
  - rewrite N.land_spec. apply andb_false_r.
  - intros i Hi. rewrite N.land_spec. destruct (N.ltb_spec i 8) as [Hlt|Hge].
    + assert (N.testbit (255 - 1) i = true) as ->; [|apply andb_true_r].
      assert (i = 1 \/ i = 2 \/ i = 3 \/ i = 4 \/ i = 5 \/ i = 6 \/ i = 7) as Hc by lia.
      destruct Hc as [->|[->|[->|[->|[->|[->| ->]]]]]]; reflexivity.
    + assert (N.testbit f i = false) as ->; [|reflexivity].
      rewrite Hones, N.land_spec, N.ones_spec_high by exact Hge. apply andb_false_r.
  - rewrite Hones, <- N.land_assoc, (N.land_comm (N.ones 8)), N.land_assoc, N.land_ones.
    apply N.mod_lt. discriminate.
Qed.

(** * TraceState grammar *)

Lemma is_lower_iff c : is_lower c = true <-> 97 <= c <= 122.
Proof. unfold is_lower, between. lia. Qed.
Lemma is_digit_iff c : is_digit c = true <-> 48 <= c <= 57.
Proof. unfold is_digit, between. lia. Qed.
Lemma lower_digit_iff c : is_lower c || is_digit c = true <-> lower_or_digit c.
Proof. rewrite orb_true_iff, is_lower_iff, is_digit_iff. reflexivity. Qed.
Lemma rest_iff c : is_lower c || is_digit c || ts_special c = true <-> key_rest_char c.
Proof.
  rewrite !orb_true_iff, is_lower_iff, is_digit_iff. unfold key_rest_char, ts_special. cbn. lia.
Qed.
Lemma rest_not_at c : key_rest_char c -> c <> 64.
Proof. unfold key_rest_char. cbn. lia. Qed.
Lemma ld_rest c : lower_or_digit c -> key_rest_char c.
Proof. unfold lower_or_digit, key_rest_char. lia. Qed.

(** What each phase of the loop accepts. *)
Lemma loop_after len i start bs : start + 1 < i ->
  valid_key_loop len i (Some start) bs = true <-> Forall key_rest_char bs.
Proof.
  revert i. induction bs as [|b r IH]; intros i Hi; cbn [valid_key_loop].
  - split; intros; [constructor|reflexivity].
  - destruct (N.eqb_spec b 64) as [->|Hb].
    + cbn. destruct (i =? 0); cbn; (split; [discriminate|]);
        intros H; inversion H as [|? ? H1 _]; subst; apply rest_not_at in H1; congruence.
    + rewrite orb_false_r. destruct (is_lower b || is_digit b || ts_special b) eqn:E.
      * cbn [negb]. assert ((i =? 0) = false) as -> by lia. cbn [andb].
        assert ((i =? start + 1) = false) as -> by lia. cbn [andb].
        rewrite IH by lia. apply rest_iff in E. split; intros H; [constructor; assumption|inversion H; assumption].
      * cbn [negb]. split; [discriminate|]. intros H. inversion H as [|? ? H1 _]; subst.
        apply rest_iff in H1. congruence.
Qed.

Lemma loop_vendor len start bs :
  valid_key_loop len (start + 1) (Some start) bs = true <-> bs = [] \/ simple_part bs.
Proof.
  destruct bs as [|b r]; cbn [valid_key_loop].
  - split; [left; reflexivity|reflexivity].
  - assert ((start + 1 =? 0) = false) as -> by lia. cbn [andb].
    destruct (N.eqb_spec b 64) as [->|Hb].
    + cbn. split; [discriminate|]. intros [H|(c & r' & H & Hl & _)]; [discriminate|].
      injection H as <- <-. unfold lower_or_digit in Hl. lia.
    + rewrite orb_false_r, N.eqb_refl. cbn [andb].
      destruct (is_lower b || is_digit b) eqn:E.
      * cbn [orb negb]. rewrite loop_after by lia. split.
        -- intros H. right. exists b, r. split; [reflexivity|]. split; [apply lower_digit_iff; exact E|exact H].
        -- intros [H|(c & r' & H & _ & Hr)]; [discriminate|]. injection H as <- <-. exact Hr.
      * cbn [orb]. assert (~ (b :: r = [] \/ simple_part (b :: r))) as Hno.
        { intros [H|(c & r' & H & Hl & _)]; [discriminate|]. injection H as <- <-.
          apply lower_digit_iff in Hl. congruence. }
        split; [|intros H; contradiction].
        destruct (ts_special b); cbn [negb]; discriminate.
Qed.

Lemma loop_tenant len i bs : 0 < i -> len = i + N.of_nat (List.length bs) ->
  valid_key_loop len i None bs = true <->
  Forall key_rest_char bs \/
  exists a b, bs = a ++ 64 :: b /\ Forall key_rest_char a /\ (List.length b <= 13)%nat /\ (b = [] \/ simple_part b).
Proof.
  revert i. induction bs as [|b r IH]; intros i Hi Hlen; cbn [valid_key_loop].
  - split; [left; constructor|reflexivity].
  - assert ((i =? 0) = false) as -> by lia. cbn [andb].
    destruct (N.eqb_spec b 64) as [->|Hb].
    + rewrite orb_true_r. cbn [negb orb]. cbn [List.length] in Hlen.
      destruct (N.ltb_spec (i + 14) len) as [Hlt|Hge].
      * split; [discriminate|]. intros [H|(a & b & H & Ha & Hb & _)].
        -- inversion H as [|? ? H1 _]; subst. apply rest_not_at in H1. congruence.
        -- destruct a as [|x a].
           ++ injection H as ->. lia.
           ++ injection H as <- _. inversion Ha as [|? ? H1 _]; subst. apply rest_not_at in H1. congruence.
      * rewrite loop_vendor. split.
        -- intros H. right. exists [], r. repeat split; [constructor|lia|exact H].
        -- intros [H|(a & b & H & Ha & Hb & Hs)].
           ++ inversion H as [|? ? H1 _]; subst. apply rest_not_at in H1. congruence.
           ++ destruct a as [|x a].
              ** injection H as ->. exact Hs.
              ** injection H as <- _. inversion Ha as [|? ? H1 _]; subst. apply rest_not_at in H1. congruence.
    + rewrite orb_false_r. destruct (is_lower b || is_digit b || ts_special b) eqn:E; cbn [negb].
      * apply rest_iff in E. rewrite IH by (cbn [List.length] in Hlen; lia). split.
        -- intros [H|(a & b' & -> & Ha & H)]; [left; constructor; assumption|].
           right. exists (b :: a), b'. split; [reflexivity|]. split; [constructor; assumption|exact H].
        -- intros [H|(a & b' & H & Ha & H')]; [left; inversion H; assumption|].
           right. destruct a as [|x a]; [injection H as -> _; congruence|].
           injection H as <- ->. exists a, b'. split; [reflexivity|]. split; [inversion Ha; assumption|exact H'].
      * split; [discriminate|]. intros [H|(a & b' & H & Ha & _)].
        -- inversion H as [|? ? H1 _]; subst. apply rest_iff in H1. congruence.
        -- destruct a as [|x a]; [injection H as -> _; congruence|]. injection H as <- _.
           inversion Ha as [|? ? H1 _]; subst. apply rest_iff in H1. congruence.
Qed.

Definition key_shape (k : str) : Prop :=
  k = [] \/ simple_part k \/
  exists tenant system, k = tenant ++ 64 :: system /\ simple_part tenant /\
    (List.length system <= 13)%nat /\ (system = [] \/ simple_part system).

Lemma loop_spec bs : valid_key_loop (N.of_nat (List.length bs)) 0 None bs = true <-> key_shape bs.
Proof.
  unfold key_shape. destruct bs as [|b r]; cbn [valid_key_loop].
  - split; [left; reflexivity|reflexivity].
  - cbn [N.eqb andb]. destruct (is_lower b || is_digit b) eqn:E.
    + cbn [orb negb]. rewrite <- negb_orb, E. cbn [negb].
      apply lower_digit_iff in E. assert (b <> 64) as Hb by (unfold lower_or_digit in E; lia).
      apply N.eqb_neq in Hb. rewrite Hb. cbn [N.add].
      rewrite loop_tenant by (cbn [List.length]; lia). split.
      * intros [H|(a & s & -> & Ha & Hs & Hs')].
        -- right; left. exists b, r. repeat split; assumption.
        -- right; right. exists (b :: a), s. repeat split; [|assumption|assumption].
           exists b, a. repeat split; assumption.
      * intros [H|[(c & r' & H & _ & Hr)|(t & s & H & (c & r' & -> & _ & Hr) & Hs & Hs')]]; [discriminate| |].
        -- injection H as <- <-. left. exact Hr.
        -- injection H as <- ->. right. exists r', s. repeat split; assumption.
    + cbn [orb]. rewrite <- negb_orb, E. cbn [negb].
      split; [destruct (negb (ts_special b || (b =? 64))); discriminate|].
      intros [H|[(c & r' & H & Hl & Hr)|(t & s & H & (c & r' & -> & Hl & Hr) & Hs & Hs')]]; [discriminate| |];
        injection H as <- _; apply lower_digit_iff in Hl; congruence.
Qed.

Lemma shape_ascii k : key_shape k -> Forall (fun b => b < 0x80) k.
Proof.
  assert (forall c, key_rest_char c -> c < 128) as Hr by (intros c; unfold key_rest_char; cbn; lia).
  assert (forall s, simple_part s -> Forall (fun b => b < 128) s) as Hs.
  { intros s (c & r & -> & Hc & H). constructor; [apply Hr, ld_rest, Hc|].
    eapply Forall_impl; [|exact H]. exact Hr. }
  intros [->|[H|(t & s & -> & Ht & _ & H)]]; [constructor|apply Hs, H|].
  apply Forall_app. split; [apply Hs, Ht|]. constructor; [lia|].
  destruct H as [->|H]; [constructor|apply Hs, H].
Qed.

Lemma ts_valid_key_spec k : ts_valid_key k = true <-> lib_key k.
Proof.
  unfold ts_valid_key, blen.
  unfold lib_key. fold (key_shape k). split.
  - destruct (N.ltb_spec 256 (N.of_nat (List.length (utf8 k)))) as [_|Hle]; [discriminate|].
    rewrite loop_spec. intros H. pose proof (shape_ascii _ H) as Ha. apply utf8_all_ascii in Ha.
    rewrite Ha in *. split; [unfold byte in *; lia|exact H].
  - intros [Hl H]. rewrite (utf8_all_ascii2 k (shape_ascii _ H)). change byte with N.
    destruct (N.ltb_spec 256 (N.of_nat (@List.length N k))); [unfold str, char in *; lia|]. apply loop_spec, H.
Qed.

Lemma ts_valid_value_spec v : ts_valid_value v = true <-> lib_value v.
Proof.
  unfold ts_valid_value, lib_value.
  assert (forall c, existsb (N.eqb c) v = true <-> In c v) as Hin.
  { intros c. rewrite existsb_exists. split.
    - intros (x & Hx & E). apply N.eqb_eq in E. subst. exact Hx.
    - intros H. exists c. split; [exact H|apply N.eqb_refl]. }
  destruct (N.ltb_spec 256 (blen v)).
  - split; [discriminate|]. lia.
  - rewrite negb_true_iff, orb_false_iff. rewrite <- !not_true_iff_false, !Hin. tauto.
Qed.

(** * TraceState constructors *)

Lemma ts_collect_spec l :
  (valid_members l /\ ts_collect l = Ok l) \/
  (exists pre k v post, l = pre ++ (k, v) :: post /\ valid_members pre /\
     ((~ lib_key k /\ ts_collect l = Err (ErrKey k)) \/
      (lib_key k /\ ~ lib_value v /\ ts_collect l = Err (ErrValue v)))).
Proof.
  induction l as [|[k v] r IH]; cbn [ts_collect].
  - left. split; [constructor|reflexivity].
  - destruct (ts_valid_key k) eqn:Ek; cbn [negb].
    + apply ts_valid_key_spec in Ek. destruct (ts_valid_value v) eqn:Ev; cbn [negb].
      * apply ts_valid_value_spec in Ev. destruct IH as [[H ->]|(pre & k' & v' & post & -> & Hp & H)].
        -- left. split; [|reflexivity]. constructor; [split; assumption|exact H].
        -- right. exists ((k, v) :: pre), k', v', post. split; [reflexivity|].
           split; [constructor; [split; assumption|exact Hp]|].
           destruct H as [[H ->]|(H & H' & ->)]; [left; auto|right; auto].
      * right. exists [], k, v, r. split; [reflexivity|]. split; [constructor|]. right.
        split; [exact Ek|]. split; [|reflexivity]. rewrite <- ts_valid_value_spec, Ev. discriminate.
    + right. exists [], k, v, r. split; [reflexivity|]. split; [constructor|]. left. split; [|reflexivity].
      rewrite <- ts_valid_key_spec, Ek. discriminate.
Qed.

Lemma ts_from_key_value_ok l t :
  ts_from_key_value l = Ok t <-> valid_members l /\ t = of_members l.
Proof.
  unfold ts_from_key_value. destruct (ts_collect_spec l) as [[H E]|(pre & k & v & post & -> & Hp & H)].
  - rewrite E. unfold of_members. destruct l; (split; [intros X; injection X as <-; auto|intros [_ ->]; reflexivity]).
  - split.
    + destruct H as [[_ ->]|(_ & _ & ->)]; discriminate.
    + intros [Hv _]. exfalso. apply Forall_app in Hv as [_ Hv]. inversion Hv as [|? ? [Hk Hv'] _]; subst.
      destruct H as [[H _]|(_ & H & _)]; contradiction.
Qed.

Lemma ts_from_key_value_err l e :
  ts_from_key_value l = Err e ->
  exists pre k v post, l = pre ++ (k, v) :: post /\ valid_members pre /\
    ((~ lib_key k /\ e = ErrKey k) \/ (lib_key k /\ ~ lib_value v /\ e = ErrValue v)).
Proof.
  unfold ts_from_key_value. destruct (ts_collect_spec l) as [[H E]|(pre & k & v & post & -> & Hp & H)].
  - rewrite E. destruct l; discriminate.
  - intros He. exists pre, k, v, post. split; [reflexivity|]. split; [exact Hp|].
    destruct H as [[H E]|(H & H' & E)]; rewrite E in He; injection He as <-; auto.
Qed.

Lemma remove_first_in k l e : In e (remove_first k l) -> In e l.
Proof.
  induction l as [|[k' v] r IH]; cbn; [tauto|]. destruct (str_eqb k' k); cbn; [auto|].
  intros [H|H]; auto.
Qed.

Lemma remove_first_valid k l : valid_members l -> valid_members (remove_first k l).
Proof.
  unfold valid_members. rewrite !Forall_forall. intros H e He. apply H, (remove_first_in k), He.
Qed.

Lemma delete_members t k : members (ts_delete_from_deque t k) = remove_first k (members t).
Proof. destruct t; reflexivity. Qed.

Lemma insert_spec t k v r : ts_insert t k v = r <->
  (~ lib_key k /\ r = Err (ErrKey k)) \/
  (lib_key k /\ ~ lib_value v /\ r = Err (ErrValue v)) \/
  (lib_key k /\ lib_value v /\ r = Ok (Some ((k, v) :: remove_first k (members t)))).
Proof.
  unfold ts_insert. destruct (ts_valid_key k) eqn:Ek; cbn [negb].
  - apply ts_valid_key_spec in Ek. destruct (ts_valid_value v) eqn:Ev; cbn [negb].
    + apply ts_valid_value_spec in Ev.
      replace (match ts_delete_from_deque t k with Some l => l | None => [] end)
        with (remove_first k (members t)) by (rewrite <- delete_members; reflexivity).
      split; [intros <-; auto|]. intros [[H _]|[(_ & H & _)|(_ & _ & ->)]]; [contradiction|contradiction|reflexivity].
    + assert (~ lib_value v) as Hv by (rewrite <- ts_valid_value_spec, Ev; discriminate).
      split; [intros <-; auto|]. intros [[H _]|[(_ & _ & ->)|(_ & H & _)]]; [contradiction|reflexivity|contradiction].
  - assert (~ lib_key k) as Hk by (rewrite <- ts_valid_key_spec, Ek; discriminate).
    split; [intros <-; auto|]. intros [[_ ->]|[(H & _)|(H & _)]]; [reflexivity|contradiction|contradiction].
Qed.

Lemma delete_spec t k r : ts_delete t k = r <->
  (~ lib_key k /\ r = Err (ErrKey k)) \/
  (lib_key k /\ exists t', r = Ok t' /\ members t' = remove_first k (members t) /\ (t' = None <-> t = None)).
Proof.
  unfold ts_delete. destruct (ts_valid_key k) eqn:Ek; cbn [negb].
  - apply ts_valid_key_spec in Ek. split.
    + intros <-. right. split; [exact Ek|]. exists (ts_delete_from_deque t k). split; [reflexivity|].
      split; [apply delete_members|]. destruct t; cbn; split; congruence.
    + intros [[H _]|(_ & t' & -> & H & Hn)]; [contradiction|]. f_equal.
      destruct t as [l|]; destruct t' as [l'|]; cbn in *; try reflexivity.
      * congruence.
      * destruct Hn as [Hn _]. specialize (Hn eq_refl). discriminate.
      * destruct Hn as [_ Hn]. specialize (Hn eq_refl). discriminate.
  - assert (~ lib_key k) as Hk by (rewrite <- ts_valid_key_spec, Ek; discriminate).
    split; [intros <-; auto|]. intros [[_ ->]|(H & _)]; [reflexivity|contradiction].
Qed.

Lemma ts_from_str_kv s t : ts_from_str s = Ok t -> exists l, ts_from_key_value l = Ok t.
Proof. unfold ts_from_str. destruct (ts_split_members _); [eauto|discriminate]. Qed.

Lemma reach_valid t : ts_reach t -> valid_members (members t).
Proof.
  induction 1 as [|l t H|s t H|t k v t' Hr IH H|t k t' Hr IH H].
  - constructor.
  - apply ts_from_key_value_ok in H as [H ->]. destruct l; exact H.
  - apply ts_from_str_kv in H as [l H]. apply ts_from_key_value_ok in H as [H ->]. destruct l; exact H.
  - apply insert_spec in H as [[_ H]|[(_ & _ & H)|(Hk & Hv & H)]]; [discriminate|discriminate|].
    injection H as ->. constructor; [split; assumption|]. apply remove_first_valid, IH.
  - apply delete_spec in H as [[_ H]|(Hk & t'' & H & Hm & _)]; [discriminate|].
    injection H as <-. rewrite Hm. apply remove_first_valid, IH.
Qed.

(** * TraceState order *)

Lemma remove_first_without k l : NoDup (keys l) -> remove_first k l = without k l.
Proof.
  induction l as [|[k' v] r IH]; cbn; [reflexivity|]. intros H. inversion H as [|? ? Hn Hd]; subst.
  destruct (str_eqb_spec k' k) as [->|Hne]; cbn [negb].
  - clear - Hn. induction r as [|[k' v'] r IH]; cbn in *; [reflexivity|].
    destruct (str_eqb_spec k' k) as [->|Hne]; [tauto|]. cbn. f_equal. apply IH. tauto.
  - f_equal. apply IH, Hd.
Qed.

Lemma keys_without k l : keys (without k l) = filter (fun x => negb (str_eqb x k)) (keys l).
Proof. induction l as [|[k' v] r IH]; cbn; [reflexivity|]. destruct (str_eqb k' k); cbn; [exact IH|f_equal; exact IH]. Qed.

Lemma without_nodup k l : NoDup (keys l) -> NoDup (keys (without k l)) /\ ~ In k (keys (without k l)).
Proof.
  intros H. rewrite keys_without. split; [apply NoDup_filter, H|].
  rewrite filter_In, str_eqb_refl. intros [_ X]. discriminate.
Qed.

Lemma ts_find_spec k l v : ts_find k l = Some v <-> first_value k l v.
Proof.
  induction l as [|[k' v'] r IH]; cbn [ts_find].
  - split; [discriminate|]. intros H. inversion H.
  - destruct (str_eqb_spec k' k) as [->|Hne].
    + split; [intros H; injection H as ->; constructor|]. intros H. inversion H; subst; [reflexivity|contradiction].
    + rewrite IH. split; [intros H; constructor; assumption|]. intros H. inversion H; subst; [contradiction|assumption].
Qed.

Lemma ts_find_none k l : ts_find k l = None <-> ~ In k (keys l).
Proof.
  induction l as [|[k' v'] r IH]; cbn; [tauto|]. destruct (str_eqb_spec k' k) as [->|Hne].
  - split; [discriminate|]. tauto.
  - rewrite IH. tauto.
Qed.

Lemma ts_get_find t k : ts_get t k = ts_find k (members t).
Proof. destruct t; reflexivity. Qed.

Lemma ts_find_remove_other k k' l : k' <> k -> ts_find k' (remove_first k l) = ts_find k' l.
Proof.
  intros Hne. induction l as [|[x v] r IH]; cbn; [reflexivity|].
  destruct (str_eqb_spec x k) as [->|Hx]; cbn.
  - destruct (str_eqb_spec k k'); [congruence|reflexivity].
  - destruct (str_eqb x k'); [reflexivity|exact IH].
Qed.

Lemma without_order k l : without k (remove_first k l) = without k l.
Proof.
  induction l as [|[x v] r IH]; cbn; [reflexivity|].
  destruct (str_eqb_spec x k) as [->|Hx]; cbn.
  - reflexivity.
  - destruct (str_eqb_spec x k); [contradiction|]. cbn. f_equal. exact IH.
Qed.

(** * TraceState header *)

Lemma lib_value_no_comma v : lib_value v -> lacks 44 v.
Proof. intros (_ & H & _). exact H. Qed.

Lemma key_chars k c : lib_key k -> In c k -> key_rest_char c \/ c = 64.
Proof.
  assert (forall s, simple_part s -> In c s -> key_rest_char c) as Hs.
  { intros s (d & r & -> & Hd & Hr) [<-|Hin]; [apply ld_rest, Hd|]. rewrite Forall_forall in Hr. apply Hr, Hin. }
  intros [_ [->|[H|(t & s & -> & Ht & _ & H)]]] Hin; [destruct Hin|left; eapply Hs; eassumption|].
  apply in_app_iff in Hin as [Hin|[<-|Hin]]; [left; eapply Hs; eassumption|auto|].
  destruct H as [->|H]; [destruct Hin|left; eapply Hs; eassumption].
Qed.

Lemma lib_key_lacks k : lib_key k -> lacks 44 k /\ lacks 61 k.
Proof.
  intros H. unfold lacks.
  split; intros Hc; apply (key_chars _ _ H) in Hc; unfold key_rest_char in Hc; cbn in Hc; lia.
Qed.

Definition valid_ms (ms : list (str * nat * str)) : Prop := valid_members (map member_kv ms).

Lemma member_lacks m : lib_key (fst (member_kv m)) -> lib_value (snd (member_kv m)) ->
  lacks 44 (member_text m) /\ member_text m <> [].
Proof.
  destruct m as [[k p] v]. cbn [member_kv fst snd member_text]. intros Hk Hv. split.
  - unfold lacks. rewrite !in_app_iff. intros [H|[H|H]].
    + exact (proj1 (lib_key_lacks k Hk) H).
    + apply repeat_spec in H. discriminate.
    + apply (lib_value_no_comma v Hv), H.
  - destruct k; discriminate.
Qed.

Lemma drop_eq_repeat n v : ~ In 61 v -> drop_while (N.eqb 61) (repeat 61 n ++ v) = v.
Proof.
  intros H. induction n as [|n IH]; cbn [repeat app drop_while].
  - apply drop_while_id. destruct v as [|c r]; [exact I|]. apply N.eqb_neq. intros <-. apply H. left. reflexivity.
  - rewrite N.eqb_refl. exact IH.
Qed.

Lemma split_members_of ms : valid_ms ms -> ts_split_members (map member_text ms) = Ok (map member_kv ms).
Proof.
  unfold valid_ms. induction ms as [|[[k p] v] r IH]; cbn [map ts_split_members]; intros H; [reflexivity|].
  inversion H as [|? ? [Hk Hv] Hr]; subst. cbn [member_kv fst snd] in *.
  unfold member_text at 1. cbn [repeat app]. rewrite split_once_app by (apply (lib_key_lacks k), Hk).
  rewrite (IH Hr). cbn [drop_while]. rewrite N.eqb_refl, drop_eq_repeat by apply Hv. reflexivity.
Qed.

Lemma split_members_inv ps l : ts_split_members ps = Ok l ->
  exists ms, ps = map member_text ms /\ l = map member_kv ms.
Proof.
  revert l. induction ps as [|p r IH]; cbn [ts_split_members]; intros l H.
  - injection H as <-. exists []. auto.
  - destruct (split_once 61 p) as [[k rest]|] eqn:E; [|discriminate].
    destruct (ts_split_members r) as [r'|]; [|discriminate]. injection H as <-.
    destruct (IH r' eq_refl) as (ms & -> & ->). apply split_once_spec in E as [-> _].
    destruct (drop_while_suffix (N.eqb 61) (61 :: rest)) as (a & Ha & Hall).
    destruct a as [|c a].
    + cbn [drop_while] in Ha. rewrite N.eqb_refl in Ha. cbn [app] in Ha.
      assert (List.length (drop_while (N.eqb 61) rest) <= List.length rest)%nat as Hl.
      { destruct (drop_while_suffix (N.eqb 61) rest) as (b & Hb & _). rewrite Hb at 2. rewrite app_length. lia. }
      rewrite <- Ha in Hl. cbn in Hl. lia.
    + exists ((k, List.length a, drop_while (N.eqb 61) (61 :: rest)) :: ms). split; [|reflexivity].
      assert (forall b, forallb (N.eqb 61) b = true -> b = repeat 61 (List.length b)) as Hr.
      { induction b as [|x b IHb]; cbn [forallb List.length repeat]; [reflexivity|]. intros H.
        apply andb_true_iff in H as [Hx H]. apply N.eqb_eq in Hx. subst. f_equal. apply IHb, H. }
      cbn [map member_text]. f_equal. f_equal.
      transitivity ((c :: a) ++ drop_while (N.eqb 61) (61 :: rest)); [exact Ha|].
      f_equal. exact (Hr (c :: a) Hall).
Qed.

Lemma drop_last_empty_cases l : drop_last_empty l = l \/ l = drop_last_empty l ++ [[]].
Proof.
  induction l as [|x r IH]; [left; reflexivity|]. destruct x as [|c x], r as [|y r].
  - right. reflexivity.
  - change (drop_last_empty ([] :: y :: r)) with ([] :: drop_last_empty (y :: r)).
    destruct IH as [->|IH]; [left; reflexivity|right]. cbn [app]. f_equal. exact IH.
  - left. reflexivity.
  - change (drop_last_empty ((c :: x) :: y :: r)) with ((c :: x) :: drop_last_empty (y :: r)).
    destruct IH as [->|IH]; [left; reflexivity|right]. cbn [app]. f_equal. exact IH.
Qed.

Lemma join_snoc_empty l : l <> [] -> join [44] (l ++ [[]]) = join [44] l ++ [44].
Proof.
  induction l as [|x r IH]; [congruence|]. intros _. destruct r as [|y r].
  - cbn. reflexivity.
  - change (join [44] ((x :: y :: r) ++ [[]])) with (x ++ [44] ++ join [44] ((y :: r) ++ [[]])).
    rewrite IH by discriminate. change (join [44] (x :: y :: r)) with (x ++ [44] ++ join [44] (y :: r)).
    rewrite <- !app_assoc. reflexivity.
Qed.

Lemma last_nonempty l : Forall (fun p : str => p <> []) l -> l <> [] -> last l [0] <> [].
Proof.
  intros H. induction H as [|x r Hx H IH]; [congruence|]. intros _. destruct r; [exact Hx|apply IH; discriminate].
Qed.

Lemma drop_last_empty_snoc l : drop_last_empty (l ++ [[]]) = l.
Proof.
  induction l as [|x r IH]; [reflexivity|]. cbn [app]. destruct r as [|y r].
  - destruct x; reflexivity.
  - change ((y :: r) ++ [[]]) with (y :: (r ++ [[]])) in *. destruct x; cbn [drop_last_empty] in *; f_equal; exact IH.
Qed.

Lemma split_terminator_header ms s : valid_ms ms -> header_of ms s ->
  split_terminator 44 s = map member_text ms.
Proof.
  unfold valid_ms. intros Hv.
  assert (Forall (lacks 44) (map member_text ms) /\ Forall (fun p => p <> []) (map member_text ms)) as [Hl Hne].
  { unfold valid_members in Hv. rewrite Forall_map in Hv. rewrite !Forall_map. split;
      (eapply Forall_impl; [|exact Hv]); intros m [Hk Hx]; apply (member_lacks m Hk Hx). }
  destruct ms as [|m ms].
  - intros [->|[H _]]; [reflexivity|congruence].
  - intros [->|[_ ->]].
    + unfold split_terminator. rewrite split_join by (assumption || discriminate).
      apply drop_last_empty_id, last_nonempty; [exact Hne|discriminate].
    + rewrite <- join_snoc_empty by discriminate. unfold split_terminator. rewrite split_join.
      * apply drop_last_empty_snoc.
      * destruct ms; discriminate.
      * apply Forall_app. split; [exact Hl|]. constructor; [intros []|constructor].
Qed.

Lemma ts_from_str_spec s t : ts_from_str s = Ok t <->
  exists ms, header_of ms s /\ valid_ms ms /\ t = of_members (map member_kv ms).
Proof.
  unfold ts_from_str. split.
  - destruct (ts_split_members _) as [l|] eqn:E; [|discriminate]. intros H.
    apply ts_from_key_value_ok in H as [Hv ->]. apply split_members_inv in E as (ms & Hs & ->).
    exists ms. split; [|split; [exact Hv|reflexivity]].
    unfold split_terminator in Hs. unfold header_of. rewrite <- Hs.
    destruct (drop_last_empty_cases (split 44 s)) as [E|E].
    + left. rewrite E, join_split. reflexivity.
    + destruct ms as [|m ms].
      * cbn [map] in Hs. rewrite Hs in *. cbn in E. left. rewrite <- (join_split 44 s), E. reflexivity.
      * right. split; [discriminate|]. rewrite <- (join_split 44 s) at 1. rewrite E at 1.
        apply join_snoc_empty. rewrite Hs. discriminate.
  - intros (ms & Hh & Hv & ->). rewrite (split_terminator_header ms s Hv Hh), (split_members_of ms Hv).
    apply ts_from_key_value_ok. auto.
Qed.

Lemma header_text t : ts_header t = join [44] (map member_text (map (fun e => (fst e, O, snd e)) (members t))).
Proof.
  destruct t as [l|]; [|reflexivity]. unfold ts_header, ts_header_delimited. rewrite map_map. cbn [members].
  f_equal.
Qed.

Lemma header_roundtrip t : valid_members (members t) -> ts_from_str (ts_header t) = Ok (of_members (members t)).
Proof.
  intros H. apply ts_from_str_spec. exists (map (fun e => (fst e, O, snd e)) (members t)).
  assert (map member_kv (map (fun e : str * str => (fst e, O, snd e)) (members t)) = members t) as E.
  { rewrite map_map. rewrite <- (map_id (members t)) at 2. apply map_ext. intros [k v]. reflexivity. }
  unfold valid_ms. rewrite E. split; [|split; [exact H|reflexivity]].
  left. apply header_text.
Qed.

(** Deciding the character classes on concrete strings. *)
Lemma lhex_dec s : forallb is_lhex s = true -> Forall lower_hex_char s.
Proof.
  rewrite forallb_forall, Forall_forall. intros H c Hc. apply H in Hc.
  unfold is_lhex, is_digit, between in Hc. unfold lower_hex_char. lia.
Qed.
Lemma rest_dec s : forallb (fun c => is_lower c || is_digit c || ts_special c) s = true -> Forall key_rest_char s.
Proof. rewrite forallb_forall, Forall_forall. intros H c Hc. apply rest_iff, H, Hc. Qed.
