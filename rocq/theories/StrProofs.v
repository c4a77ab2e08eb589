(** Facts about strings used by the codec proofs. *)
From Coq Require Import List NArith Bool Lia.
From Coq Require Import ZifyBool ZifyNat ZifyN.
From Verif Require Import Str.
Import ListNotations.
Local Open Scope N_scope.

Lemma str_eqb_eq a b : str_eqb a b = true <-> a = b.
Proof.
  revert b. induction a as [|x a IH]; intros [|y b]; cbn [str_eqb]; split; intros H;
    try reflexivity; try discriminate.
  - apply andb_true_iff in H as [H1 H2]. apply N.eqb_eq in H1. apply IH in H2. congruence.
  - injection H as -> ->. rewrite N.eqb_refl. apply IH. reflexivity.
Qed.
Lemma str_eqb_refl a : str_eqb a a = true.
Proof. apply str_eqb_eq. reflexivity. Qed.
Lemma str_eqb_neq a b : str_eqb a b = false <-> a <> b.
Proof. rewrite <- not_true_iff_false, str_eqb_eq. tauto. Qed.
Lemma str_eqb_spec a b : reflect (a = b) (str_eqb a b).
Proof. apply iff_reflect. symmetry. apply str_eqb_eq. Qed.
Lemma str_eqb_sym a b : str_eqb a b = str_eqb b a.
Proof. destruct (str_eqb_spec a b) as [->|H]; [symmetry; apply str_eqb_refl|].
  symmetry. apply str_eqb_neq. congruence. Qed.

(** ** UTF-8 *)

Lemma utf8_decode_char c r : is_scalar c = true ->
  utf8_decode (utf8_char c ++ r) = option_map (cons c) (utf8_decode r).
Proof.
  intros H. unfold is_scalar in H. unfold utf8_char.
  destruct (N.ltb_spec c 0x80) as [H1|H1]; [|destruct (N.ltb_spec c 0x800) as [H2|H2];
    [|destruct (N.ltb_spec c 0x10000) as [H3|H3]]]; cbn [app].
  - cbn [utf8_decode]. destruct (N.ltb_spec c 0x80); [reflexivity|lia].
  - assert (Hd : c / 64 < 32 /\ 2 <= c / 64) by (split; [apply N.div_lt_upper_bound; lia|apply N.div_le_lower_bound; lia]).
    pose proof (N.mod_lt c 64 ltac:(lia)) as Hm. pose proof (N.div_mod' c 64) as He.
    set (q := c / 64) in *. set (m := c mod 64) in *. clearbody q m.
    cbn [utf8_decode]. unfold between, is_cont.
    destruct (N.ltb_spec (0xC0 + q) 0x80); [lia|].
    replace ((0xC2 <=? 0xC0 + q) && (0xC0 + q <=? 0xDF)) with true by lia.
    replace ((0x80 <=? 0x80 + m) && (0x80 + m <? 0xC0)) with true by lia.
    f_equal. f_equal. lia.
  - assert (Hd : c / 4096 < 16) by (apply N.div_lt_upper_bound; lia).
    pose proof (N.mod_lt c 64 ltac:(lia)) as Hm. pose proof (N.div_mod' c 64) as He.
    pose proof (N.mod_lt (c / 64) 64 ltac:(lia)) as Hm2. pose proof (N.div_mod' (c / 64) 64) as He2.
    rewrite N.div_div in He2 by lia. change (64 * 64) with 4096 in He2.
    set (q := c / 4096) in *. set (m := c mod 64) in *. set (p := (c / 64) mod 64) in *.
    set (t := c / 64) in *. clearbody q m p t.
    cbn [utf8_decode]. unfold between, is_cont.
    destruct (N.ltb_spec (0xE0 + q) 0x80); [lia|].
    replace ((0xC2 <=? 0xE0 + q) && (0xE0 + q <=? 0xDF)) with false by lia.
    replace ((0xE0 <=? 0xE0 + q) && (0xE0 + q <=? 0xEF)) with true by lia.
    replace ((0x80 <=? 0x80 + m) && (0x80 + m <? 0xC0)) with true by lia.
    replace (if 0xE0 + q =? 0xE0 then (0xA0 <=? 0x80 + p) && (0x80 + p <=? 0xBF)
             else if 0xE0 + q =? 0xED then (0x80 <=? 0x80 + p) && (0x80 + p <=? 0x9F)
             else (0x80 <=? 0x80 + p) && (0x80 + p <? 0xC0)) with true.
    + cbn [andb]. f_equal. f_equal. lia.
    + destruct (N.eqb_spec (0xE0 + q) 0xE0); [lia|]. destruct (N.eqb_spec (0xE0 + q) 0xED); lia.
  - assert (Hd : c / 262144 < 5) by (apply N.div_lt_upper_bound; lia).
    pose proof (N.mod_lt c 64 ltac:(lia)) as Hm. pose proof (N.div_mod' c 64) as He.
    pose proof (N.mod_lt (c / 64) 64 ltac:(lia)) as Hm2. pose proof (N.div_mod' (c / 64) 64) as He2.
    pose proof (N.mod_lt (c / 4096) 64 ltac:(lia)) as Hm3. pose proof (N.div_mod' (c / 4096) 64) as He3.
    rewrite N.div_div in He2 by lia. change (64 * 64) with 4096 in He2.
    rewrite N.div_div in He3 by lia. change (4096 * 64) with 262144 in He3.
    set (q := c / 262144) in *. set (m := c mod 64) in *. set (p := (c / 64) mod 64) in *.
    set (t := c / 64) in *. set (u := (c / 4096) mod 64) in *. set (w := c / 4096) in *.
    clearbody q m p t u w.
    cbn [utf8_decode]. unfold between, is_cont.
    destruct (N.ltb_spec (0xF0 + q) 0x80); [lia|].
    replace ((0xC2 <=? 0xF0 + q) && (0xF0 + q <=? 0xDF)) with false by lia.
    replace ((0xE0 <=? 0xF0 + q) && (0xF0 + q <=? 0xEF)) with false by lia.
    replace ((0xF0 <=? 0xF0 + q) && (0xF0 + q <=? 0xF4)) with true by lia.
    replace ((0x80 <=? 0x80 + m) && (0x80 + m <? 0xC0)) with true by lia.
    replace ((0x80 <=? 0x80 + p) && (0x80 + p <? 0xC0)) with true by lia.
    replace (if 0xF0 + q =? 0xF0 then (0x90 <=? 0x80 + u) && (0x80 + u <=? 0xBF)
             else if 0xF0 + q =? 0xF4 then (0x80 <=? 0x80 + u) && (0x80 + u <=? 0x8F)
             else (0x80 <=? 0x80 + u) && (0x80 + u <? 0xC0)) with true.
    + cbn [andb]. f_equal. f_equal. lia.
    + destruct (N.eqb_spec (0xF0 + q) 0xF0); [lia|]. destruct (N.eqb_spec (0xF0 + q) 0xF4); lia.
Qed.

Lemma utf8_roundtrip s : wf_str s = true -> utf8_decode (utf8 s) = Some s.
Proof.
  induction s as [|c s IH]; [reflexivity|]. cbn [wf_str forallb utf8 flat_map].
  intros H. apply andb_true_iff in H as [H1 H2].
  rewrite utf8_decode_char by assumption.
  change (flat_map utf8_char s) with (utf8 s). rewrite IH by exact H2. reflexivity.
Qed.

Lemma utf8_app a b : utf8 (a ++ b) = utf8 a ++ utf8 b.
Proof. apply flat_map_app. Qed.

Lemma utf8_ascii s : forallb (fun c => c <? 0x80) s = true -> utf8 s = s.
Proof.
  induction s as [|c s IH]; [reflexivity|]. cbn [forallb utf8 flat_map]. intros H.
  apply andb_true_iff in H as [H1 H2]. unfold utf8_char at 1. rewrite H1. cbn [app].
  f_equal. apply IH. exact H2.
Qed.

Lemma utf8_char_high c : 0x80 <= c -> Forall (fun b => 0x80 <= b) (utf8_char c).
Proof.
  intros H. unfold utf8_char. destruct (N.ltb_spec c 0x80); [lia|].
  destruct (c <? 0x800); [|destruct (c <? 0x10000)]; repeat constructor; lia.
Qed.

Lemma blen_app a b : blen (a ++ b) = blen a + blen b.
Proof. unfold blen. rewrite utf8_app, app_length. lia. Qed.

(** ** Trimming *)

Lemma drop_while_id p s : match s with c :: _ => p c = false | [] => True end -> drop_while p s = s.
Proof. destruct s; cbn; [reflexivity|]. intros ->. reflexivity. Qed.

Lemma drop_while_head p s : match drop_while p s with c :: _ => p c = false | [] => True end.
Proof. induction s as [|c s IH]; cbn; [exact I|]. destruct (p c) eqn:E; [exact IH|exact E]. Qed.

Lemma drop_while_idem p s : drop_while p (drop_while p s) = drop_while p s.
Proof. apply drop_while_id. apply drop_while_head. Qed.

Lemma drop_while_suffix p s : exists a, s = a ++ drop_while p s /\ forallb p a = true.
Proof. induction s as [|c s [a [H1 H2]]]; cbn; [exists []; split; reflexivity|].
  destruct (p c) eqn:E.
  - exists (c :: a). cbn. rewrite E, H2. split; [congruence|reflexivity].
  - exists []. split; reflexivity. Qed.

Lemma trim_idem s : trim (trim s) = trim s.
Proof.
  unfold trim, trim_start, trim_end.
  set (t := drop_while is_ws s).
  assert (Ht : match t with c :: _ => is_ws c = false | [] => True end) by apply drop_while_head.
  set (u := drop_while is_ws (rev t)).
  assert (Hu : match rev u with c :: _ => is_ws c = false | [] => True end).
  { destruct (drop_while_suffix is_ws (rev t)) as (a & Ha & _). fold u in Ha.
    destruct (rev u) as [|c r] eqn:E; [exact I|].
    assert (t = rev u ++ rev a) as Ht2.
    { rewrite <- rev_app_distr, <- Ha, rev_involutive. reflexivity. }
    rewrite Ht2, E in Ht. exact Ht. }
  rewrite (drop_while_id _ (rev u)) by exact Hu. rewrite rev_involutive.
  unfold u. rewrite drop_while_idem. reflexivity.
Qed.

Lemma trim_id s : match s with c :: _ => is_ws c = false | [] => True end ->
  match rev s with c :: _ => is_ws c = false | [] => True end -> trim s = s.
Proof. intros H1 H2. unfold trim, trim_start, trim_end.
  rewrite (drop_while_id _ s) by exact H1. rewrite drop_while_id by exact H2.
  apply rev_involutive. Qed.

Lemma trim_no_ws s : forallb (fun c => negb (is_ws c)) s = true -> trim s = s.
Proof.
  intros H. rewrite forallb_forall in H. apply trim_id.
  - destruct s as [|c r]; [exact I|]. specialize (H c (or_introl eq_refl)).
    apply negb_true_iff. exact H.
  - destruct (rev s) as [|c r] eqn:E; [exact I|].
    assert (In c s) as Hin by (apply in_rev; rewrite E; left; reflexivity).
    apply H in Hin. apply negb_true_iff. exact Hin.
Qed.

(** ** Splitting and joining *)

Lemma split_nonempty c s : split c s <> [].
Proof. induction s as [|x s IH]; cbn; [discriminate|]. destruct (x =? c); [discriminate|].
  destruct (split c s); discriminate. Qed.

Definition lacks (c : char) (s : str) : Prop := ~ In c s.

Lemma lacks_forallb c s : lacks c s <-> forallb (fun x => negb (x =? c)) s = true.
Proof.
  unfold lacks. rewrite forallb_forall. split.
  - intros H x Hx. destruct (N.eqb_spec x c) as [->|]; [tauto|reflexivity].
  - intros H Hin. apply H in Hin. rewrite N.eqb_refl in Hin. discriminate.
Qed.

Lemma split_lacks c s : lacks c s -> split c s = [s].
Proof.
  induction s as [|x s IH]; intros H; [reflexivity|]. cbn [split].
  destruct (N.eqb_spec x c) as [->|Hne]; [exfalso; apply H; left; reflexivity|].
  rewrite IH; [reflexivity|]. intros Hin. apply H. right. exact Hin.
Qed.

Lemma split_app c a b : lacks c a -> split c (a ++ c :: b) = a :: split c b.
Proof.
  induction a as [|x a IH]; intros H; cbn [app split].
  - rewrite N.eqb_refl. reflexivity.
  - destruct (N.eqb_spec x c) as [->|Hne]; [exfalso; apply H; left; reflexivity|].
    rewrite IH; [reflexivity|]. intros Hin. apply H. right. exact Hin.
Qed.

Lemma split_join c l : l <> [] -> Forall (lacks c) l -> split c (join [c] l) = l.
Proof.
  induction l as [|x l IH]; intros Hne Hall; [contradiction|].
  inversion Hall as [|? ? Hx Hl]; subst. destruct l as [|y l].
  - cbn. apply split_lacks. exact Hx.
  - change (join [c] (x :: y :: l)) with (x ++ c :: join [c] (y :: l)).
    rewrite split_app by exact Hx. rewrite IH; [reflexivity|discriminate|exact Hl].
Qed.

Lemma join_split c s : join [c] (split c s) = s.
Proof.
  induction s as [|x s IH]; [reflexivity|]. cbn [split].
  destruct (N.eqb_spec x c) as [->|Hne].
  - pose proof (split_nonempty c s) as Hs. destruct (split c s) as [|p ps]; [contradiction|].
    change (join [c] ([] :: p :: ps)) with ([] ++ c :: join [c] (p :: ps)). rewrite IH. reflexivity.
  - pose proof (split_nonempty c s) as Hs. destruct (split c s) as [|p ps]; [contradiction|].
    destruct ps as [|q ps].
    + cbn in IH |- *. congruence.
    + change (join [c] ((x :: p) :: q :: ps)) with (x :: (p ++ c :: join [c] (q :: ps))).
      change (join [c] (p :: q :: ps)) with (p ++ c :: join [c] (q :: ps)) in IH. congruence.
Qed.

Lemma split_pieces_lack c s : Forall (lacks c) (split c s).
Proof.
  induction s as [|x s IH]; cbn [split].
  - constructor; [intros []|constructor].
  - destruct (N.eqb_spec x c) as [->|Hne].
    + constructor; [intros []|exact IH].
    + destruct (split c s) as [|p ps]; inversion IH as [|? ? H1 H2]; subst.
      * constructor; [|constructor]. intros [H|[]]. congruence.
      * constructor; [|exact H2]. intros [H|H]; [congruence|exact (H1 H)].
Qed.

Lemma split_piece_incl c s p x : In p (split c s) -> In x p -> In x s.
Proof.
  revert p. induction s as [|y s IH]; intros p; cbn [split].
  - intros [<-|[]] [].
  - destruct (N.eqb_spec y c) as [->|Hne].
    + intros [<-|Hin] Hx; [destruct Hx|]. right. eapply IH; eassumption.
    + destruct (split c s) as [|q qs] eqn:E.
      * intros [<-|[]] [<-|[]]. left. reflexivity.
      * intros [<-|Hin] Hx.
        -- destruct Hx as [<-|Hx]; [left; reflexivity|]. right. apply (IH q); [left; reflexivity|exact Hx].
        -- right. apply (IH p); [right; exact Hin|exact Hx].
Qed.

Lemma drop_last_empty_id l : last l [0] <> [] -> drop_last_empty l = l.
Proof.
  induction l as [|x l IH]; intros H; [reflexivity|].
  destruct l as [|y l].
  - cbn in H |- *. destruct x; [contradiction|reflexivity].
  - assert (drop_last_empty (x :: y :: l) = x :: drop_last_empty (y :: l)) as ->
      by (destruct x; reflexivity).
    rewrite IH by exact H. reflexivity.
Qed.

Lemma split_terminator_id c s : last (split c s) [0] <> [] -> split_terminator c s = split c s.
Proof. apply drop_last_empty_id. Qed.

Lemma split_once_app c a b : lacks c a -> split_once c (a ++ c :: b) = Some (a, b).
Proof.
  induction a as [|x a IH]; intros H; cbn [app split_once].
  - rewrite N.eqb_refl. reflexivity.
  - destruct (N.eqb_spec x c) as [->|Hne]; [exfalso; apply H; left; reflexivity|].
    rewrite IH; [reflexivity|]. intros Hin. apply H. right. exact Hin.
Qed.

Lemma split_once_lacks c a : lacks c a -> split_once c a = None.
Proof.
  induction a as [|x a IH]; intros H; cbn [split_once]; [reflexivity|].
  destruct (N.eqb_spec x c) as [->|Hne]; [exfalso; apply H; left; reflexivity|].
  rewrite IH; [reflexivity|]. intros Hin. apply H. right. exact Hin.
Qed.

Lemma split_once_spec c s a b : split_once c s = Some (a, b) -> s = a ++ c :: b /\ lacks c a.
Proof.
  revert a b. induction s as [|x s IH]; intros a b; cbn [split_once]; [discriminate|].
  destruct (N.eqb_spec x c) as [->|Hne].
  - intros [= <- <-]. split; [reflexivity|intros []].
  - destruct (split_once c s) as [[a' b']|]; [|discriminate]. intros [= <- <-].
    destruct (IH _ _ eq_refl) as [-> Hl]. split; [reflexivity|].
    intros [H|H]; [congruence|exact (Hl H)].
Qed.

Lemma split_once_none c s : split_once c s = None -> lacks c s.
Proof.
  induction s as [|x s IH]; cbn [split_once]; [intros _ []|].
  destruct (N.eqb_spec x c) as [->|Hne]; [discriminate|].
  destruct (split_once c s) as [[a b]|]; [discriminate|].
  intros _ [H|H]; [congruence|exact (IH eq_refl H)].
Qed.

(** ** Hexadecimal *)

Lemma hex_val_char d : d < 16 -> hex_val (hex_char d) = Some d.
Proof.
  intros H. unfold hex_char, hex_val, is_digit, between.
  destruct (N.ltb_spec d 10) as [H1|H1].
  - replace ((48 <=? 48 + d) && (48 + d <=? 57)) with true by lia. f_equal. lia.
  - replace ((48 <=? 87 + d) && (87 + d <=? 57)) with false by lia.
    replace ((97 <=? 87 + d) && (87 + d <=? 102)) with true by lia. f_equal. lia.
Qed.
Lemma hex_val_char_upper d : d < 16 -> hex_val (hex_char_upper d) = Some d.
Proof.
  intros H. unfold hex_char_upper, hex_val, is_digit, between.
  destruct (N.ltb_spec d 10) as [H1|H1].
  - replace ((48 <=? 48 + d) && (48 + d <=? 57)) with true by lia. f_equal. lia.
  - replace ((48 <=? 55 + d) && (55 + d <=? 57)) with false by lia.
    replace ((97 <=? 55 + d) && (55 + d <=? 102)) with false by lia.
    replace ((65 <=? 55 + d) && (55 + d <=? 70)) with true by lia. f_equal. lia.
Qed.

Lemma hex_val_bound c d : hex_val c = Some d -> d < 16.
Proof.
  unfold hex_val, is_digit, between.
  destruct ((48 <=? c) && (c <=? 57)) eqn:E1; [intros [= <-]; lia|].
  destruct ((97 <=? c) && (c <=? 102)) eqn:E2; [intros [= <-]; lia|].
  destruct ((65 <=? c) && (c <=? 70)) eqn:E3; [intros [= <-]; lia|discriminate].
Qed.

Lemma hex_digits_app b acc s t :
  hex_digits b acc (s ++ t) =
  match hex_digits b acc s with Some v => hex_digits b v t | None => None end.
Proof.
  revert acc. induction s as [|c s IH]; intros acc; [reflexivity|]. cbn [app hex_digits].
  destruct (hex_val c) as [d|]; [|reflexivity].
  destruct (acc * 16 + d <? b); [apply IH|reflexivity].
Qed.

Lemma hex_digits_pad b w v : v < b -> v < 16 ^ N.of_nat w -> hex_digits b 0 (hex_pad w v) = Some v.
Proof.
  revert v. induction w as [|w IH]; intros v Hb Hw.
  - cbn in *. f_equal. lia.
  - cbn [hex_pad]. rewrite hex_digits_app.
    assert (v / 16 <= v) by (apply N.div_le_upper_bound; lia).
    rewrite IH.
    + cbn [hex_digits]. rewrite hex_val_char by (apply N.mod_lt; lia).
      pose proof (N.div_mod' v 16).
      destruct (N.ltb_spec (v / 16 * 16 + v mod 16) b) as [_|?]; [f_equal; lia|lia].
    + lia.
    + apply N.div_lt_upper_bound; [lia|]. rewrite Nat2N.inj_succ, N.pow_succ_r' in Hw. exact Hw.
Qed.

Lemma hex_pad_length w v : length (hex_pad w v) = w.
Proof. revert v. induction w as [|w IH]; intros v; cbn [hex_pad]; [reflexivity|].
  rewrite app_length, IH. cbn. lia. Qed.

Definition is_lhex (c : char) : bool := is_digit c || between 97 102 c.

Lemma hex_char_lhex d : d < 16 -> is_lhex (hex_char d) = true.
Proof. intros H. unfold is_lhex, hex_char, is_digit, between. destruct (N.ltb_spec d 10); lia. Qed.

Lemma hex_pad_lhex w v : forallb is_lhex (hex_pad w v) = true.
Proof. revert v. induction w as [|w IH]; intros v; cbn [hex_pad]; [reflexivity|].
  rewrite forallb_app, IH. cbn. rewrite hex_char_lhex by (apply N.mod_lt; lia). reflexivity. Qed.

Lemma parse_hex_no_sign b s : s <> [] -> Forall (fun c => c <> 43 /\ c <> 45) s ->
  parse_hex b s = hex_digits b 0 s.
Proof.
  intros Hne Hall. destruct s as [|c r]; [contradiction|].
  inversion Hall as [|? ? [H1 H2] ?]; subst. unfold parse_hex.
  destruct (N.eqb_spec c 43); [contradiction|]. destruct (N.eqb_spec c 45); [contradiction|].
  destruct r; reflexivity.
Qed.

Lemma lhex_not_sign s : forallb is_lhex s = true -> Forall (fun c => c <> 43 /\ c <> 45) s.
Proof.
  rewrite forallb_forall, Forall_forall. intros H c Hc. apply H in Hc.
  unfold is_lhex, is_digit, between in Hc. lia.
Qed.

Lemma parse_hex_pad b w v : v < b -> v < 16 ^ N.of_nat w -> (0 < w)%nat ->
  parse_hex b (hex_pad w v) = Some v.
Proof.
  intros Hb Hw H0. rewrite parse_hex_no_sign.
  - apply hex_digits_pad; assumption.
  - intros E. pose proof (hex_pad_length w v) as Hl. rewrite E in Hl. cbn in Hl. lia.
  - apply lhex_not_sign, hex_pad_lhex.
Qed.

Lemma parse_hex_bound b s v : 0 < b -> parse_hex b s = Some v -> v < b.
Proof.
  intros Hb.
  assert (forall s acc v, acc < b -> hex_digits b acc s = Some v -> v < b) as H.
  { clear s v. induction s as [|c s IH]; intros acc v Ha; cbn [hex_digits]; [congruence|].
    destruct (hex_val c) as [d|]; [|discriminate].
    destruct (N.ltb_spec (acc * 16 + d) b); [apply IH; assumption|discriminate]. }
  unfold parse_hex. destruct s as [|c [|c' r]]; [discriminate| |].
  - destruct ((c =? 43) || (c =? 45)); [discriminate|apply H; exact Hb].
  - destruct (c =? 43); apply H; exact Hb.
Qed.

Lemma utf8_all_ascii s : Forall (fun b => b < 0x80) (utf8 s) -> utf8 s = s.
Proof.
  intros H. apply utf8_ascii. apply forallb_forall. intros c Hc. apply N.ltb_lt.
  destruct (N.ltb_spec c 0x80) as [|Hge]; [assumption|exfalso].
  pose proof (utf8_char_high c Hge) as Hh.
  assert (exists b, In b (utf8_char c)) as [b Hb].
  { unfold utf8_char. destruct (c <? 0x80); [|destruct (c <? 0x800); [|destruct (c <? 0x10000)]];
      eexists; left; reflexivity. }
  rewrite Forall_forall in H, Hh. specialize (Hh b Hb). specialize (H b).
  assert (In b (utf8 s)) as Hb' by (apply in_flat_map; exists c; tauto).
  apply H in Hb'. lia.
Qed.

Lemma utf8_all_ascii2 s : Forall (fun b => b < 0x80) s -> utf8 s = s.
Proof. intros H. apply utf8_ascii. apply forallb_forall. rewrite Forall_forall in H.
  intros c Hc. apply N.ltb_lt. apply H, Hc. Qed.

(** * split_terminator as an inverse of join *)

Lemma dle_cases l : drop_last_empty l = l \/ l = drop_last_empty l ++ [[]].
Proof.
  induction l as [|x r IH]; [left; reflexivity|]. destruct x as [|c x], r as [|y r].
  - right. reflexivity.
  - change (drop_last_empty ([] :: y :: r)) with ([] :: drop_last_empty (y :: r)).
    destruct IH as [->|IH]; [left; reflexivity|right]. cbn [app]. f_equal. exact IH.
  - left. reflexivity.
  - change (drop_last_empty ((c :: x) :: y :: r)) with ((c :: x) :: drop_last_empty (y :: r)).
    destruct IH as [->|IH]; [left; reflexivity|right]. cbn [app]. f_equal. exact IH.
Qed.

Lemma dle_snoc l : drop_last_empty (l ++ [[]]) = l.
Proof.
  induction l as [|x r IH]; [reflexivity|]. cbn [app]. destruct r as [|y r].
  - destruct x; reflexivity.
  - change ((y :: r) ++ [[]]) with (y :: (r ++ [[]])) in *. destruct x; cbn [drop_last_empty] in *; f_equal; exact IH.
Qed.

Lemma join_snoc_nil sep l : l <> [] -> join sep (l ++ [[]]) = join sep l ++ sep.
Proof.
  induction l as [|x r IH]; [congruence|]. intros _. destruct r as [|y r].
  - cbn. rewrite app_nil_r. reflexivity.
  - change (join sep ((x :: y :: r) ++ [[]])) with (x ++ sep ++ join sep ((y :: r) ++ [[]])).
    rewrite IH by discriminate. change (join sep (x :: y :: r)) with (x ++ sep ++ join sep (y :: r)).
    rewrite <- !app_assoc. reflexivity.
Qed.

Lemma split_term_iff c s ps : ps <> [] -> last ps [0] <> [] ->
  split_terminator c s = ps <-> Forall (lacks c) ps /\ (s = join [c] ps \/ s = join [c] ps ++ [c]).
Proof.
  intros Hne Hl. unfold split_terminator. split.
  - intros H. pose proof (split_pieces_lack c s) as Hp. pose proof (join_split c s) as Hj.
    destruct (dle_cases (split c s)) as [E|E]; rewrite H in E.
    + rewrite <- E in Hp, Hj. split; [exact Hp|]. left. symmetry. exact Hj.
    + rewrite E in Hp, Hj. split; [apply Forall_app in Hp as [Hp _]; exact Hp|]. right.
      rewrite <- Hj. apply join_snoc_nil, Hne.
  - intros [Hp [->| ->]].
    + rewrite split_join by assumption. apply drop_last_empty_id, Hl.
    + rewrite <- (join_snoc_nil [c]) by exact Hne. rewrite split_join.
      * apply dle_snoc.
      * destruct ps; discriminate.
      * apply Forall_app. split; [exact Hp|]. constructor; [intros []|constructor].
Qed.

Lemma to_lower_id s : to_lower s = s <-> Forall (fun c => ~ (65 <= c <= 90)) s.
Proof.
  unfold to_lower. induction s as [|c r IH]; cbn [map].
  - split; [constructor|reflexivity].
  - unfold to_lower_char at 1, is_upper, between. destruct ((65 <=? c) && (c <=? 90)) eqn:E.
    + split; [intros H; injection H; lia|]. intros H. inversion H; subst. lia.
    + split.
      * intros H. injection H as H. constructor; [lia|]. apply IH, H.
      * intros H. inversion H; subst. f_equal. apply IH. assumption.
Qed.
