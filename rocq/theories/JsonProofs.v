(** Reading back what the OTLP JSON writers of JsonModel.v write. *)
From Coq Require Import String List NArith ZArith Bool Ascii Lia.
From Verif Require Import Str StrProofs PropProofs F64 OtlpModel JsonModel.
Import ListNotations.
Local Open Scope Z_scope.

(** ** Scalars *)
Definition bytes (b : list N) : Prop := Forall (fun x => (x < 256)%N) b.

Lemma hex_roundtrip b : bytes b -> hex_decode (hex_encode b) = Some b.
Proof.
  induction 1 as [|x b Hx Hb IH]; [reflexivity|]. cbn [hex_encode flat_map app hex_decode].
  pose proof (N.mod_lt x 16 ltac:(lia)). assert (x / 16 < 16)%N by (apply N.div_lt_upper_bound; lia).
  rewrite !hex_val_char by assumption. unfold hex_encode in IH. rewrite IH.
  f_equal. f_equal. pose proof (N.div_mod x 16 ltac:(lia)). lia.
Qed.

Lemma b64_val_char n : (n < 64)%N -> b64_val (b64_char n) = Some n.
Proof.
  intros Hn. unfold b64_val, b64_char, is_upper, is_lower, is_digit, between.
  destruct (N.ltb_spec n 26); [|destruct (N.ltb_spec n 52); [|destruct (N.ltb_spec n 62); [|destruct (N.eqb_spec n 62)]]].
  - destruct (N.leb_spec 65 (65 + n)); [|lia]. destruct (N.leb_spec (65 + n) 90); [|lia]. cbn [andb]. f_equal. lia.
  - destruct (N.leb_spec 65 (71 + n)); [|lia]. destruct (N.leb_spec (71 + n) 90); [lia|]. cbn [andb].
    destruct (N.leb_spec 97 (71 + n)); [|lia]. destruct (N.leb_spec (71 + n) 122); [|lia]. cbn [andb]. f_equal. lia.
  - destruct (N.leb_spec 65 (n - 4)); [lia|]. cbn [andb]. destruct (N.leb_spec 97 (n - 4)); [lia|]. cbn [andb].
    destruct (N.leb_spec 48 (n - 4)); [|lia]. destruct (N.leb_spec (n - 4) 57); [|lia]. cbn [andb]. f_equal. lia.
  - subst. reflexivity.
  - assert (n = 63)%N as -> by lia. reflexivity.
Qed.
Lemma b64_char_pad n : (n < 64)%N -> (b64_char n =? PAD)%N = false.
Proof.
  intros Hn. apply N.eqb_neq. unfold b64_char, PAD.
  destruct (N.ltb_spec n 26); [lia|]. destruct (N.ltb_spec n 52); [lia|]. destruct (N.ltb_spec n 62); [lia|]. destruct (N.eqb_spec n 62); lia.
Qed.
Lemma b64_group x y z : (x < 256)%N -> (y < 256)%N -> (z < 256)%N ->
  let a := (x / 4)%N in let b := (x mod 4 * 16 + y / 16)%N in let c := (y mod 16 * 4 + z / 64)%N in let d := (z mod 64)%N in
  (a < 64 /\ b < 64 /\ c < 64 /\ d < 64 /\ a * 4 + b / 16 = x /\ b mod 16 * 16 + c / 4 = y /\ c mod 4 * 64 + d = z)%N.
Proof.
  intros Hx Hy Hz a b c d.
  pose proof (N.div_mod x 4 ltac:(lia)). pose proof (N.mod_lt x 4 ltac:(lia)).
  pose proof (N.div_mod y 16 ltac:(lia)). pose proof (N.mod_lt y 16 ltac:(lia)).
  pose proof (N.div_mod z 64 ltac:(lia)). pose proof (N.mod_lt z 64 ltac:(lia)).
  assert (y / 16 < 16)%N by (apply N.div_lt_upper_bound; lia). assert (z / 64 < 4)%N by (apply N.div_lt_upper_bound; lia).
  assert (x / 4 < 64)%N by (apply N.div_lt_upper_bound; lia).
  assert (b / 16 = x mod 4)%N as Eb1 by (unfold b; rewrite N.div_add_l by lia; rewrite N.div_small by assumption; lia).
  assert (b mod 16 = y / 16)%N as Eb2 by (unfold b; rewrite N.add_comm, N.mod_add by lia; apply N.mod_small; assumption).
  assert (c / 4 = y mod 16)%N as Ec1 by (unfold c; rewrite N.div_add_l by lia; rewrite N.div_small by assumption; lia).
  assert (c mod 4 = z / 64)%N as Ec2 by (unfold c; rewrite N.add_comm, N.mod_add by lia; apply N.mod_small; assumption).
  rewrite Eb1, Eb2, Ec1, Ec2. unfold a, b, c, d. repeat split; lia.
Qed.
Lemma list_ind3 {A} (P : list A -> Prop) : P [] -> (forall x, P [x]) -> (forall x y, P [x; y]) ->
  (forall x y z l, P l -> P (x :: y :: z :: l)) -> forall l, P l.
Proof.
  intros H0 H1 H2 H3. assert (forall l, P l /\ (forall x, P (x :: l)) /\ forall x y, P (x :: y :: l)) as H.
  { induction l as [|a l (I0 & I1 & I2)]; [repeat split; auto|]. repeat split; auto. }
  intros l. apply H.
Qed.
Lemma base64_roundtrip b : bytes b -> base64_decode (base64_encode b) = Some b.
Proof.
  induction b as [|x|x y|x y z b IH] using list_ind3; intros Hb; [reflexivity| | |].
  - inversion Hb; subst. destruct (b64_group x 0 0) as (Ha & Hbb & _ & _ & E1 & E2 & _); try lia.
    rewrite N.add_0_r in *. cbn [base64_encode base64_decode]. unfold base64_last.
    rewrite !b64_val_char by assumption. cbn [N.eqb PAD Pos.eqb andb]. rewrite N.mod_mul by lia. cbn [N.eqb]. rewrite E1. reflexivity.
  - inversion Hb as [|? ? Hx Hy']; subst. inversion Hy' as [|? ? Hy _]; subst.
    destruct (b64_group x y 0) as (Ha & Hbb & Hc & _ & E1 & E2 & _); try lia.
    rewrite N.add_0_r in *. cbn [base64_encode base64_decode]. unfold base64_last.
    rewrite !b64_val_char by assumption. rewrite b64_char_pad by assumption. cbn [andb].
    change (PAD =? PAD)%N with true. cbn [andb]. rewrite N.mod_mul by lia. cbn [N.eqb]. rewrite E1, E2. reflexivity.
  - inversion Hb as [|? ? Hx Hy']; subst. inversion Hy' as [|? ? Hy Hz']; subst. inversion Hz' as [|? ? Hz Hb']; subst.
    destruct (b64_group x y z) as (Ha & Hbb & Hc & Hd & E1 & E2 & E3); try assumption.
    specialize (IH Hb'). cbn [base64_encode].
    assert (base64_decode (base64_encode b) = Some b) as IH' by exact IH.
    destruct (base64_encode b) as [|e s] eqn:Es.
    + cbn [base64_decode] in IH |- *. injection IH as <-. unfold base64_last. rewrite !b64_val_char by assumption.
      rewrite !b64_char_pad by assumption. cbn [andb]. rewrite E1, E2, E3. reflexivity.
    + remember (e :: s) as t eqn:Et. cbn [base64_decode]. rewrite Et at 1. rewrite !b64_val_char by assumption.
      rewrite IH', E1, E2, E3. reflexivity.
Qed.

(** Decimal. *)
Lemma dec_digits_snoc bound s c acc v : (0 < bound)%N -> dec_digits bound acc s = Some v -> is_digit c = true -> (v * 10 + (c - 48) < bound)%N ->
  dec_digits bound acc (s ++ [c]) = Some (v * 10 + (c - 48))%N.
Proof.
  intros Hb Hs Hc Hv. rewrite dec_digits_app, Hs. cbn [dec_digits]. rewrite Hc.
  destruct (N.ltb_spec (v * 10 + (c - 48)) bound); [reflexivity|lia].
Qed.
Lemma dec_of_digits fuel n bound : (n < 10 ^ N.of_nat fuel)%N -> (n < bound)%N -> dec_digits bound 0 (dec_of fuel n) = Some n.
Proof.
  revert n. induction fuel as [|f IH]; intros n Hn Hb.
  { cbn in Hn. cbn. f_equal. lia. }
  cbn [dec_of]. destruct (N.ltb_spec n 10).
  - cbn [dec_digits]. unfold is_digit, between. destruct (N.leb_spec 48 (48 + n)); [|lia]. destruct (N.leb_spec (48 + n) 57); [|lia]. cbn [andb].
    replace (0 * 10 + (48 + n - 48))%N with n by lia. destruct (N.ltb_spec n bound); [reflexivity|lia].
  - pose proof (N.div_mod n 10 ltac:(lia)). pose proof (N.mod_lt n 10 ltac:(lia)).
    rewrite (dec_digits_snoc bound _ _ _ (n / 10)%N).
    + f_equal. lia.
    + lia.
    + apply IH; [|lia]. apply N.div_lt_upper_bound; [lia|]. rewrite Nat2N.inj_succ, N.pow_succ_r' in Hn. exact Hn.
    + unfold is_digit, between. destruct (N.leb_spec 48 (48 + n mod 10)); [|lia]. destruct (N.leb_spec (48 + n mod 10) 57); [|lia]. reflexivity.
    + lia.
Qed.
Lemma dec_of_shape fuel n : (0 < fuel)%nat -> dec_of fuel n <> [] /\ Forall (fun c => (48 <= c <= 57)%N) (dec_of fuel n).
Proof.
  revert n. induction fuel as [|f IH]; intros n Hf; [lia|]. cbn [dec_of]. destruct (N.ltb_spec n 10).
  - split; [discriminate|]. constructor; [lia|constructor].
  - pose proof (N.mod_lt n 10 ltac:(lia)). split; [destruct (dec_of f (n / 10)); discriminate|].
    apply Forall_app. split; [|constructor; [lia|constructor]].
    destruct f; [constructor|]. apply IH. lia.
Qed.
Lemma dec_N_parse n bound : (n < 2 ^ 64)%N -> (n < bound)%N -> parse_dec bound (dec_N n) = Some n.
Proof.
  intros Hn Hb. unfold dec_N. destruct (dec_of_shape 20 n ltac:(lia)) as [Hne Hd].
  assert (dec_digits bound 0 (dec_of 20 n) = Some n) as H by (apply dec_of_digits; [eapply N.lt_trans; [exact Hn|reflexivity]|assumption]).
  destruct (dec_of 20 n) as [|c r]; [contradiction|]. inversion Hd as [|? ? Hc _]; subst. unfold parse_dec.
  destruct (N.eqb_spec c 43); [lia|]. destruct (N.eqb_spec c 45); [lia|]. cbn [orb]. destruct r; exact H.
Qed.
Lemma parse_u64_dec z : 0 <= z < 2 ^ 64 -> parse_u64 (dec_Z z) = Some z.
Proof.
  intros Hz. unfold parse_u64, dec_Z. destruct (Z.ltb_spec z 0); [lia|]. rewrite dec_N_parse; [|lia|lia]. cbn [option_map]. f_equal. lia.
Qed.
Lemma parse_i64_dec z : - 2 ^ 63 <= z < 2 ^ 63 -> parse_i64 (dec_Z z) = Some z.
Proof.
  intros Hz. unfold dec_Z. destruct (Z.ltb_spec z 0).
  - unfold parse_i64. change (45 =? 45)%N with true. cbv iota. unfold dec_N.
    destruct (dec_of_shape 20 (Z.to_N (- z)) ltac:(lia)) as [Hne _].
    assert (dec_digits (2 ^ 63 + 1) 0 (dec_of 20 (Z.to_N (- z))) = Some (Z.to_N (- z))) as E.
    { apply dec_of_digits; [|lia]. apply N.lt_trans with (2 ^ 64)%N; [lia|reflexivity]. }
    destruct (dec_of 20 (Z.to_N (- z))); [contradiction|]. rewrite E. cbn [option_map]. f_equal. lia.
  - unfold parse_i64, dec_N. destruct (dec_of_shape 20 (Z.to_N z) ltac:(lia)) as [Hne Hd].
    pose proof (dec_N_parse (Z.to_N z) (2 ^ 63) ltac:(lia) ltac:(lia)) as E. unfold dec_N in E.
    destruct (dec_of 20 (Z.to_N z)) as [|c r]; [contradiction|]. inversion Hd as [|? ? Hc _]; subst.
    destruct (N.eqb_spec c 45); [lia|]. rewrite E. cbn [option_map]. f_equal. lia.
Qed.

Lemma hex_rt b : bytes b -> de_hex (en_hex b) = Some b.
Proof. apply hex_roundtrip. Qed.
Lemma u64s_rt z : 0 <= z < 2 ^ 64 -> de_u64s (en_u64s z) = Some z.
Proof. apply parse_u64_dec. Qed.
Lemma int_rt lo hi z : lo <= z < hi -> de_int lo hi (JInt z) = Some z.
Proof. intros H. cbn. destruct (Z.leb_spec lo z); [|lia]. destruct (Z.ltb_spec z hi); [reflexivity|lia]. Qed.
Lemma f64_rt f : f64_is_finite f = true -> de_f64 (en_f64 f) = Some f.
Proof. intros H. unfold en_f64. rewrite H. reflexivity. Qed.
Lemma all_some_map {A} (g : A -> option A) l : Forall (fun a => g a = Some a) l -> all_some (map g l) = Some l.
Proof. induction 1 as [|a l Ha Hl IH]; [reflexivity|]. cbn. rewrite Ha, IH. reflexivity. Qed.
Lemma list_rt {A} (en : A -> json) de l : Forall (fun a => de (en a) = Some a) l -> de_list de (en_list en l) = Some l.
Proof. intros H. unfold de_list, en_list. rewrite map_map. apply all_some_map. exact H. Qed.
Lemma option_rt {A} (en : A -> json) de o : (forall a, o = Some a -> en a <> JNull /\ de (en a) = Some a) ->
  de_option de (en_option en o) = Some o.
Proof.
  intros H. destruct o as [a|]; [|reflexivity]. destruct (H a eq_refl) as [Hn Hd]. cbn [en_option]. unfold de_option.
  rewrite Hd. destruct (en a); try reflexivity. contradiction.
Qed.

(** ** Values *)
Section jv_ind.
Context (P : jv -> Prop).
Context (HS : forall s, P (SV s)) (HB : forall b, P (BV b)) (HI : forall z, P (IV z)) (HD : forall f, P (DV f)) (HX : forall b, P (XV b)).
Context (HA : forall l, Forall (fun o => forall v, o = Some v -> P v) l -> P (AV l)).
Context (HK : forall l : list (str * option (option jv)), Forall (fun kv => forall v, snd kv = Some (Some v) -> P v) l -> P (KV l)).
Lemma jv_ind' : forall v, P v.
Proof using HS HB HI HD HX HA HK.
  fix IH 1. intros [s|b|z|f|l|l|b]; [apply HS|apply HB|apply HI|apply HD| | |apply HX].
  - apply HA. induction l as [|o l IHl]; constructor; [|exact IHl]. clear IHl. destruct o as [v|]; intros v' H; [|discriminate].
    injection H as <-. apply IH.
  - apply HK. induction l as [|[k o] l IHl]; constructor; [|exact IHl]. clear IHl. destruct o as [[v|]|]; intros v' H; [|discriminate|discriminate].
    injection H as <-. apply IH.
Qed.
End jv_ind.

(** Values that survive JSON: floats are finite, integers and bytes have their type's
    range, and no AnyValue is empty. *)
Fixpoint ok_jv (v : jv) : Prop :=
  match v with
  | SV _ | BV _ => True
  | IV z => - 2 ^ 63 <= z < 2 ^ 63
  | DV f => f64_is_finite f = true
  | XV b => bytes b
  | AV l => (fix all l := match l with [] => True | Some v :: l => ok_jv v /\ all l | None :: _ => False end) l
  | KV l => (fix all (l : list (str * option (option jv))) := match l with
      | [] => True
      | (_, Some (Some v)) :: l => ok_jv v /\ all l
      | (_, None) :: l => all l
      | (_, Some None) :: _ => False
      end) l
  end.
Definition ok_any (o : option jv) : Prop := match o with Some v => ok_jv v | None => False end.
Definition ok_kv (kv : str * option (option jv)) : Prop := match snd kv with Some o => ok_any o | None => True end.
Lemma ok_av l : ok_jv (AV l) <-> Forall ok_any l.
Proof.
  cbn [ok_jv]. induction l as [|o l IH]; [split; constructor|]. destruct o as [v|].
  - rewrite IH. split; [intros [H1 H2]; constructor; assumption|]. intros H. inversion H; subst. split; assumption.
  - split; [contradiction|]. intros H. inversion H; subst. contradiction.
Qed.
Lemma ok_kvl l : ok_jv (KV l) <-> Forall ok_kv l.
Proof.
  cbn [ok_jv]. induction l as [|[k o] l IH]; [split; constructor|]. destruct o as [[v|]|].
  - rewrite IH. split; [intros [H1 H2]; constructor; assumption|]. intros H. inversion H; subst. split; assumption.
  - split; [contradiction|]. intros H. inversion H; subst. contradiction.
  - rewrite IH. split; [intros H1; constructor; [exact I|assumption]|]. intros H. inversion H; subst. assumption.
Qed.

(** The nesting of a value. *)
Fixpoint height (v : jv) : nat :=
  match v with
  | AV l => S (fold_right (fun o n => Nat.max (match o with Some v => height v | None => O end) n) O l)
  | KV l => S (fold_right (fun kv n => Nat.max (match snd kv with Some (Some v) => height v | _ => O end) n) O l)
  | _ => 1
  end%nat.

Ltac compute_fields :=
  cbv [get filter field fst snd str_eqb of_string map list_ascii_of_string N_of_ascii N_of_digits N.add N.mul N.eqb
       Pos.eqb Pos.add Pos.mul Pos.succ Pos.add_carry andb app].

Lemma en_value_obj v : exists l, en_value v = JObj l.
Proof. destruct v; eexists; reflexivity. Qed.
Lemma en_any_not_null o : en_any o <> JNull.
Proof. destruct o as [v|]; [|discriminate]. cbn. destruct (en_value_obj v) as [l ->]. discriminate. Qed.

Lemma de_value_en v : ok_jv v -> forall n, (height v <= n)%nat -> de_value n (en_value v) = Some (Some v).
Proof.
  induction v as [s|b|z|f|b|l IH|l IH] using jv_ind'; intros Hok n Hn; (destruct n as [|n]; [cbn in Hn; lia|]).
  - reflexivity.
  - reflexivity.
  - cbn [en_value]. cbn [de_value]. unfold visit, de_known, field. compute_fields. unfold de_string_or_int.
    rewrite parse_i64_dec by exact Hok. reflexivity.
  - cbn [en_value de_value]. unfold visit, de_known, field. compute_fields. rewrite f64_rt by exact Hok. reflexivity.
  - cbn [en_value de_value]. unfold visit, de_known, field. compute_fields. unfold de_str. rewrite base64_roundtrip by exact Hok. reflexivity.
  - change (en_value (AV l)) with (JObj [field "arrayValue" (JObj [field "values" (en_list en_any l)])]).
    apply ok_av in Hok. cbn [de_value]. unfold visit, de_known, field. compute_fields. unfold obj, req. compute_fields.
    rewrite list_rt; [reflexivity|]. cbn [height] in Hn. apply le_S_n in Hn. clear - IH Hok Hn.
    induction l as [|o l IHl]; constructor; inversion IH; inversion Hok; subst; cbn [fold_right] in Hn.
    + destruct o as [v|]; [|contradiction]. apply H1; [reflexivity|assumption|lia].
    + apply IHl; try assumption. lia.
  - change (en_value (KV l)) with (JObj [field "kvlistValue" (JObj [field "values" (en_list en_kv l)])]).
    apply ok_kvl in Hok. cbn [de_value]. unfold visit, de_known, field. compute_fields. unfold obj, req. compute_fields.
    rewrite list_rt; [reflexivity|]. cbn [height] in Hn. apply le_S_n in Hn. clear - IH Hok Hn.
    induction l as [|[k o] l IHl]; constructor; inversion IH; inversion Hok; subst; cbn [fold_right snd] in Hn.
    + unfold de_kv_with, en_kv, obj, req, dft. compute_fields. cbn [de_str]. rewrite option_rt; [reflexivity|].
      intros a ->. split; [apply en_any_not_null|]. destruct a as [v|]; [|contradiction]. apply H1; [reflexivity|assumption|lia].
    + apply IHl; try assumption. lia.
Qed.
Lemma height_depth v : (height v <= depth (en_value v))%nat.
Proof.
  induction v as [s|b|z|f|b|l IH|l IH] using jv_ind'; [cbn; lia|cbn; lia|cbn; lia| |cbn; lia| |].
  - cbn. lia.
  - change (en_value (AV l)) with (JObj [field "arrayValue" (JObj [field "values" (en_list en_any l)])]).
    cbn [height depth fold_right snd field en_list]. apply le_n_S. rewrite !Nat.max_0_r.
    apply Nat.le_trans with (fold_right (fun j n => Nat.max (depth j) n) O (map en_any l)); [|lia].
    induction l as [|o l IHl]; [cbn; lia|]. inversion IH; subst. specialize (IHl H2). cbn [fold_right map]. destruct o as [v|].
    + specialize (H1 v eq_refl). cbn [en_any]. lia.
    + lia.
  - change (en_value (KV l)) with (JObj [field "kvlistValue" (JObj [field "values" (en_list en_kv l)])]).
    cbn [height depth fold_right snd field en_list]. apply le_n_S. rewrite !Nat.max_0_r.
    apply Nat.le_trans with (fold_right (fun j n => Nat.max (depth j) n) O (map en_kv l)); [|lia].
    induction l as [|[k o] l IHl]; [cbn; lia|]. inversion IH; subst. specialize (IHl H2). cbn [fold_right map snd].
    apply Nat.max_le_compat; [|exact IHl]. destruct o as [[v|]|]; [|lia|lia]. specialize (H1 v eq_refl).
    unfold en_kv. cbn [depth fold_right snd field en_option en_any]. lia.
Qed.
Lemma any_rt o : ok_any o -> de_any (en_any o) = Some o.
Proof. destruct o as [v|]; [|contradiction]. intros H. apply de_value_en; [exact H|]. apply height_depth. Qed.
Lemma kv_rt kv : ok_kv kv -> de_kv (en_kv kv) = Some kv.
Proof.
  intros H. unfold de_kv, de_kv_with, en_kv, obj, req, dft. compute_fields. cbn [de_str]. destruct kv as [k o]. rewrite option_rt; [reflexivity|].
  intros a ->. split; [apply en_any_not_null|]. apply any_rt. exact H.
Qed.
Lemma kvs_rt l : Forall ok_kv l -> de_kvs (en_kvs l) = Some l.
Proof. intros H. apply list_rt. eapply Forall_impl; [|exact H]. apply kv_rt. Qed.

(** ** Messages *)
Definition u32r (z : Z) : Prop := 0 <= z < 2 ^ 32.
Definition i32r (z : Z) : Prop := - 2 ^ 31 <= z < 2 ^ 31.
Definition u64r (z : Z) : Prop := 0 <= z < 2 ^ 64.
Definition i64r (z : Z) : Prop := - 2 ^ 63 <= z < 2 ^ 63.
Definition ok_kvs (l : list kv) : Prop := Forall ok_kv l.
Definition for_option {A} (P : A -> Prop) (o : option A) : Prop := forall a, o = Some a -> P a.
Definition finite (f : f64) : Prop := f64_is_finite f = true.

Definition ok_res (r : jresource) : Prop := ok_kvs (jr_attrs r) /\ u32r (jr_dropped r).
Definition ok_scope (s : jscope) : Prop := ok_kvs (js_attrs s) /\ u32r (js_dropped s).
Definition ok_scoped {T} (P : T -> Prop) (g : jscoped T) : Prop := for_option ok_scope (jg_scope g) /\ Forall P (jg_items g).
Definition ok_group {T} (P : T -> Prop) (g : jgroup T) : Prop := for_option ok_res (jp_resource g) /\ Forall (ok_scoped P) (jp_scopes g).

Ltac struct H := unfold obj, dft, req; compute_fields; cbn [de_str de_bool].
Ltac leaf := first [ rewrite hex_rt by assumption | rewrite u64s_rt by assumption | rewrite kvs_rt by assumption
  | rewrite int_rt by assumption ].

Lemma res_rt r : ok_res r -> de_resource (en_resource r) = Some r.
Proof.
  intros [H1 H2]. unfold de_resource, en_resource. struct r. rewrite kvs_rt by assumption. unfold de_u32. rewrite int_rt by assumption.
  destruct r; reflexivity.
Qed.
Lemma scope_rt s : ok_scope s -> de_scope (en_scope s) = Some s.
Proof.
  intros [H1 H2]. unfold de_scope, en_scope. struct r. rewrite kvs_rt by assumption. unfold de_u32. rewrite int_rt by assumption.
  destruct s; reflexivity.
Qed.
Section groups.
Context {T : Type} (en : T -> json) (de : json -> option T) (P : T -> Prop) (HP : forall x, P x -> de (en x) = Some x).
(** The item fields do not clash with the others. *)
Definition apart (name : string) : Prop :=
  str_eqb (of_string "scope") (of_string name) = false /\ str_eqb (of_string "schemaUrl") (of_string name) = false /\
  str_eqb (of_string "resource") (of_string name) = false.
Lemma get_apart name a b j k : name <> ""%string -> apart name -> a = "scope"%string \/ a = "resource"%string -> b = "schemaUrl"%string ->
  forall m, let l := [field a j; field name k; field b m] in
  get a l = Some (Some j) /\ get name l = Some (Some k) /\ get b l = Some (Some m).
Proof using.
  intros Hne (A1 & A2 & A3) Ha -> m l. unfold l, get, field. cbn [filter fst].
  assert (str_eqb (of_string a) (of_string name) = false) as Ean by (destruct Ha; subst; assumption).
  rewrite !str_eqb_refl, Ean, A2. rewrite (str_eqb_sym (of_string name) (of_string "schemaUrl")), A2, (str_eqb_sym (of_string name) (of_string a)), Ean.
  destruct Ha as [-> | ->]; cbn; repeat split.
Qed.
Variables top scopes items : string.
Hypothesis Hi : items <> ""%string /\ apart items.
Hypothesis Hs : scopes <> ""%string /\ apart scopes.
Lemma scoped_rt g : ok_scoped P g -> de_scoped de items (en_scoped en items g) = Some g.
Proof using HP Hi.
  intros [H1 H2]. unfold de_scoped, en_scoped, obj, dft.
  destruct (get_apart items "scope" "schemaUrl" (en_option en_scope (jg_scope g)) (en_list en (jg_items g)) (proj1 Hi) (proj2 Hi) (or_introl eq_refl) eq_refl (JStr (jg_url g))) as (E1 & E2 & E3).
  rewrite E1, E2, E3. rewrite option_rt.
  2:{ intros a Ea. split; [discriminate|]. apply scope_rt. apply H1. exact Ea. }
  rewrite list_rt. 2:{ eapply Forall_impl; [|exact H2]. exact HP. }
  destruct g; reflexivity.
Qed.
Lemma group_rt g : ok_group P g -> de_group de scopes items (en_group en scopes items g) = Some g.
Proof using HP Hi Hs.
  intros [H1 H2]. unfold de_group, en_group, obj, dft.
  destruct (get_apart scopes "resource" "schemaUrl" (en_option en_resource (jp_resource g)) (en_list (en_scoped en items) (jp_scopes g)) (proj1 Hs) (proj2 Hs) (or_intror eq_refl) eq_refl (JStr (jp_url g))) as (E1 & E2 & E3).
  rewrite E1, E2, E3. rewrite option_rt.
  2:{ intros a Ea. split; [discriminate|]. apply res_rt. apply H1. exact Ea. }
  rewrite list_rt. 2:{ eapply Forall_impl; [|exact H2]. exact scoped_rt. }
  destruct g; reflexivity.
Qed.
Lemma request_rt r : Forall (ok_group P) r -> de_request de top scopes items (en_request en top scopes items r) = Some r.
Proof using HP Hi Hs.
  intros H. unfold de_request, en_request, obj, req, get, field. cbn [filter fst]. rewrite str_eqb_refl. cbn [snd].
  apply list_rt. eapply Forall_impl; [|exact H]. exact group_rt.
Qed.
End groups.

Definition ok_event (e : jevent) : Prop := u64r (je_time e) /\ ok_kvs (je_attrs e) /\ u32r (je_dropped e).
Definition ok_link (k : jlink) : Prop := bytes (jl_trace k) /\ bytes (jl_span k) /\ ok_kvs (jl_attrs k) /\ u32r (jl_dropped k) /\ u32r (jl_flags k).
Definition ok_status (s : jstatus) : Prop := i32r (jt_code s).
Definition ok_span (s : jspan) : Prop :=
  bytes (ja_trace s) /\ bytes (ja_span s) /\ bytes (ja_parent s) /\ u32r (ja_flags s) /\ i32r (ja_kind s) /\ u64r (ja_start s) /\ u64r (ja_end s) /\
  ok_kvs (ja_attrs s) /\ u32r (ja_attrs_dropped s) /\ Forall ok_event (ja_events s) /\ u32r (ja_events_dropped s) /\
  Forall ok_link (ja_links s) /\ u32r (ja_links_dropped s) /\ for_option ok_status (ja_status s).

Ltac ints := unfold de_u32, de_i32, de_u64, de_i64; rewrite ?int_rt by assumption.
Lemma event_rt e : ok_event e -> de_event (en_event e) = Some e.
Proof.
  intros (H1 & H2 & H3). unfold de_event, en_event. struct e. rewrite u64s_rt, kvs_rt by assumption. ints. destruct e; reflexivity.
Qed.
Lemma link_rt k : ok_link k -> de_link (en_link k) = Some k.
Proof.
  intros (H1 & H2 & H3 & H4 & H5). unfold de_link, en_link. struct k. rewrite !hex_rt, kvs_rt by assumption. ints. destruct k; reflexivity.
Qed.
Lemma status_rt s : ok_status s -> de_status (en_status s) = Some s.
Proof. intros H. unfold de_status, en_status. struct s. ints. destruct s; reflexivity. Qed.
Lemma span_rt s : ok_span s -> de_span (en_span s) = Some s.
Proof.
  intros (H1 & H2 & H3 & H4 & H5 & H6 & H7 & H8 & H9 & H10 & H11 & H12 & H13 & H14). unfold de_span, en_span. struct s.
  rewrite !hex_rt, !u64s_rt, kvs_rt by assumption. ints.
  rewrite list_rt by (eapply Forall_impl; [|exact H10]; exact event_rt).
  rewrite list_rt by (eapply Forall_impl; [|exact H12]; exact link_rt).
  rewrite option_rt by (intros a Ea; split; [discriminate|]; apply status_rt, H14, Ea).
  destruct s; reflexivity.
Qed.

Definition ok_log (r : jlog) : Prop :=
  u64r (jb_time r) /\ u64r (jb_observed r) /\ i32r (jb_sev r) /\ for_option ok_any (jb_body r) /\ ok_kvs (jb_attrs r) /\ u32r (jb_dropped r) /\
  u32r (jb_flags r) /\ bytes (jb_trace r) /\ bytes (jb_span r).
Lemma log_rt r : ok_log r -> de_log (en_log r) = Some r.
Proof.
  intros (H1 & H2 & H3 & H4 & H5 & H6 & H7 & H8 & H9). unfold de_log, en_log. struct r.
  rewrite !hex_rt, !u64s_rt, kvs_rt by assumption. ints.
  rewrite option_rt by (intros a Ea; split; [apply en_any_not_null|]; apply any_rt, H4, Ea).
  destruct r; reflexivity.
Qed.

Definition ok_num (n : pnum) : Prop := match n with AsInt z => i64r z | AsDouble f => finite f end.
Definition ok_ex (e : jexemplar) : Prop :=
  ok_kvs (jx_attrs e) /\ u64r (jx_time e) /\ bytes (jx_span e) /\ bytes (jx_trace e) /\ for_option ok_num (jx_value e).
Lemma ex_rt e : ok_ex e -> de_exemplar (en_exemplar e) = Some e.
Proof.
  intros (H1 & H2 & H3 & H4 & H5). unfold de_exemplar, en_exemplar. struct e. rewrite kvs_rt, !hex_rt by assumption. ints.
  rewrite option_rt; [destruct e; reflexivity|]. intros n En. split; [discriminate|]. specialize (H5 n En).
  destruct n as [z|f]; cbn in H5; unfold de_tagged, en_num, num_variant; compute_fields.
  - ints. reflexivity.
  - rewrite f64_rt by exact H5. reflexivity.
Qed.
Definition ok_np (p : jnpoint) : Prop :=
  ok_kvs (jn_attrs p) /\ u64r (jn_start p) /\ u64r (jn_time p) /\ Forall ok_ex (jn_ex p) /\ for_option ok_num (jn_value p).
Lemma np_rt p : ok_np p -> de_npoint (en_npoint p) = Some p.
Proof.
  intros (H1 & H2 & H3 & H4 & H5). unfold de_npoint, en_npoint.
  destruct (jn_value p) as [[z|f]|] eqn:Ev; cbn [app]; unfold en_num; struct p; rewrite kvs_rt, !u64s_rt by assumption;
    (rewrite list_rt by (eapply Forall_impl; [|exact H4]; exact ex_rt)); unfold de_flat, num_variant; compute_fields.
  - specialize (H5 _ eq_refl). ints. destruct p; cbn in *; subst; reflexivity.
  - specialize (H5 _ eq_refl). rewrite f64_rt by exact H5. destruct p; cbn in *; subst; reflexivity.
  - destruct p; cbn in *; subst; reflexivity.
Qed.
Lemma de_f64_list l : Forall finite l -> de_list de_f64 (en_list en_f64 l) = Some l.
Proof. intros H. apply list_rt. eapply Forall_impl; [|exact H]. exact f64_rt. Qed.
Lemma de_u64_list l : Forall u64r l -> de_list de_u64 (en_list JInt l) = Some l.
Proof. intros H. apply list_rt. eapply Forall_impl; [|exact H]. intros z Hz. apply int_rt. exact Hz. Qed.
Lemma de_f64_option o : for_option finite o -> de_option de_f64 (en_option en_f64 o) = Some o.
Proof.
  intros H. apply option_rt. intros a Ea. specialize (H a Ea). split; [|apply f64_rt; exact H]. unfold en_f64. rewrite H. discriminate.
Qed.
Definition ok_hp (p : jhpoint) : Prop :=
  ok_kvs (jh_attrs p) /\ u64r (jh_start p) /\ u64r (jh_time p) /\ u64r (jh_count p) /\ for_option finite (jh_sum p) /\ Forall u64r (jh_buckets p) /\
  Forall finite (jh_bounds p) /\ Forall ok_ex (jh_ex p) /\ for_option finite (jh_min p) /\ for_option finite (jh_max p).
Lemma hp_rt p : ok_hp p -> de_hpoint (en_hpoint p) = Some p.
Proof.
  intros (H1 & H2 & H3 & H4 & H5 & H6 & H7 & H8 & H9 & H10). unfold de_hpoint, en_hpoint. struct p.
  rewrite kvs_rt, !u64s_rt, !de_f64_option, de_u64_list, de_f64_list by assumption.
  rewrite list_rt by (eapply Forall_impl; [|exact H8]; exact ex_rt). ints. destruct p; reflexivity.
Qed.
Definition ok_buckets (b : Z * list Z) : Prop := i32r (fst b) /\ Forall u64r (snd b).
Lemma buckets_rt b : ok_buckets b -> de_buckets (en_buckets b) = Some b.
Proof. intros [H1 H2]. destruct b as [o c]. cbn [fst snd] in *. unfold de_buckets, en_buckets. struct b. rewrite de_u64_list by assumption. ints. reflexivity. Qed.
Definition ok_ep (p : jepoint) : Prop :=
  ok_kvs (jp_attrs p) /\ u64r (jp_start p) /\ u64r (jp_time p) /\ u64r (jp_count p) /\ for_option finite (jp_sum p) /\ i32r (jp_scale p) /\
  u64r (jp_zero p) /\ for_option ok_buckets (jp_pos p) /\ for_option ok_buckets (jp_neg p) /\ Forall ok_ex (jp_ex p) /\
  for_option finite (jp_min p) /\ for_option finite (jp_max p) /\ finite (jp_threshold p).
Lemma ep_rt p : ok_ep p -> de_epoint (en_epoint p) = Some p.
Proof.
  intros (H1 & H2 & H3 & H4 & H5 & H6 & H7 & H8 & H9 & H10 & H11 & H12 & H13). unfold de_epoint, en_epoint. struct p.
  rewrite kvs_rt, !de_f64_option, f64_rt by assumption.
  rewrite list_rt by (eapply Forall_impl; [|exact H10]; exact ex_rt). ints.
  rewrite !option_rt; [destruct p; reflexivity| |]; (intros a Ea; split; [discriminate|]; apply buckets_rt; auto).
Qed.
Definition ok_data (d : jdata) : Prop :=
  match d with
  | JGauge l => Forall ok_np l | JSum l t _ => Forall ok_np l /\ i32r t | JHist l t => Forall ok_hp l /\ i32r t | JExpo l t => Forall ok_ep l /\ i32r t
  end.
Definition ok_metric (m : jmetric) : Prop := for_option ok_data (jm_data m).
Lemma metric_rt m : ok_metric m -> de_metric (en_metric m) = Some m.
Proof.
  intros H. unfold de_metric, en_metric. destruct (jm_data m) as [d|] eqn:Ed; cbn [app].
  - unfold ok_metric in H. rewrite Ed in H. specialize (H d eq_refl).
    destruct d as [l|l t b|l t|l t]; unfold en_data; struct m; unfold de_flat, data_variant, obj, dft; compute_fields; cbn [ok_data] in H.
    + rewrite list_rt by (eapply Forall_impl; [|exact H]; exact np_rt). destruct m; cbn in *; subst; reflexivity.
    + destruct H as [H Ht]. rewrite list_rt by (eapply Forall_impl; [|exact H]; exact np_rt). ints. destruct m; cbn in *; subst; reflexivity.
    + destruct H as [H Ht]. rewrite list_rt by (eapply Forall_impl; [|exact H]; exact hp_rt). ints. destruct m; cbn in *; subst; reflexivity.
    + destruct H as [H Ht]. rewrite list_rt by (eapply Forall_impl; [|exact H]; exact ep_rt). ints. destruct m; cbn in *; subst; reflexivity.
  - struct m. unfold de_flat, data_variant. compute_fields. destruct m; cbn in *; subst; reflexivity.
Qed.
