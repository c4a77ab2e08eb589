(** Reading back what is written: lemmas for ProtoProps.v. *)
From Coq Require Import List NArith ZArith Bool Lia.
From Coq Require Import ZifyBool ZifyNat ZifyN.
From Flocq Require Import IEEE754.Bits.
From Verif Require Import Str StrProofs F64 OtlpModel ProtoModel ProtoSpec.
Import ListNotations.
Local Open Scope N_scope.

(** ** Numbers *)
Lemma varint_aux_ok : forall f n r, n < 2 ^ N.of_nat f \/ n < 128 -> read_varint (varint_aux f n ++ r) = Some (n, r).
Proof.
  induction f as [|f IH]; intros n r H; cbn [varint_aux].
  - cbn [List.app read_varint]. destruct (N.ltb_spec n 128); [reflexivity|]. cbn in H. lia.
  - destruct (N.ltb_spec n 128) as [Hs|Hs].
    + cbn [List.app read_varint]. destruct (N.ltb_spec n 128); [reflexivity|lia].
    + cbn [List.app read_varint]. pose proof (N.mod_lt n 128 ltac:(discriminate)) as Hm.
      destruct (N.ltb_spec (n mod 128 + 128) 128); [lia|]. rewrite IH.
      * f_equal. f_equal. rewrite (N.div_mod n 128) at 3 by discriminate. lia.
      * left. destruct H as [H|H]; [|lia]. rewrite Nat2N.inj_succ, N.pow_succ_r' in H.
        apply N.div_lt_upper_bound; [discriminate|]. lia.
Qed.
Lemma varint_ok n r : read_varint (varint n ++ r) = Some (n, r).
Proof.
  apply varint_aux_ok. destruct n as [|p]; [right; reflexivity|left].
  cbn [N.size_nat]. change (N.pos p < 2 ^ N.of_nat (Pos.size_nat p)).
  replace (N.of_nat (Pos.size_nat p)) with (N.size (N.pos p)); [apply N.size_gt|].
  cbn [N.size]. induction p as [p IH|p IH|]; cbn [Pos.size Pos.size_nat]; [| |reflexivity]; rewrite Nat2N.inj_succ, <- IH; lia.
Qed.
Lemma le_bytes_ok : forall k n r, n < 256 ^ N.of_nat k -> read_le k (le_bytes k n ++ r) = Some (n, r).
Proof.
  induction k as [|k IH]; intros n r H.
  - cbn in H. cbn [le_bytes List.app read_le]. replace n with 0 by lia. reflexivity.
  - cbn [le_bytes List.app read_le]. rewrite IH.
    + f_equal. f_equal. rewrite (N.div_mod n 256) at 3 by discriminate. lia.
    + rewrite Nat2N.inj_succ, N.pow_succ_r' in H. apply N.div_lt_upper_bound; [discriminate|]. exact H.
Qed.
Lemma varint_aux_not_nil f n : varint_aux f n <> [].
Proof. destruct f; cbn [varint_aux]; [discriminate|]. destruct (n <? 128); discriminate. Qed.

(** ** Fields *)
Definition payload_ok (p : payload) : Prop :=
  match p with I64 n => n < 2 ^ 64 | I32 n => n < 2 ^ 32 | _ => True end.
Lemma payload_read p r : payload_ok p ->
  read_payload (wire_type p) (match p with Varint n => varint n | I64 n => le_bytes 8 n | Len b => varint (N.of_nat (length b)) ++ b | I32 n => le_bytes 4 n end ++ r) = Some (p, r).
Proof.
  intros H. destruct p as [n|n|b|n]; cbn [wire_type read_payload].
  - rewrite varint_ok. reflexivity.
  - rewrite le_bytes_ok; [reflexivity|exact H].
  - rewrite <- app_assoc, varint_ok, Nat2N.id, app_length.
    destruct (Nat.leb_spec (length b) (length b + length r)); [|lia].
    rewrite firstn_app, skipn_app, firstn_all, skipn_all, Nat.sub_diag. cbn [firstn skipn List.app]. rewrite app_nil_r. reflexivity.
  - rewrite le_bytes_ok; [reflexivity|exact H].
Qed.
Lemma key_ok t p : (t * 8 + wire_type p) mod 8 = wire_type p /\ (t * 8 + wire_type p) / 8 = t.
Proof.
  assert (wire_type p < 8) by (destruct p; reflexivity).
  rewrite N.add_comm, N.mod_add, N.div_add by discriminate. rewrite N.mod_small, N.div_small by assumption. split; lia.
Qed.
Lemma ser_field_length f : (1 <= length (ser_field f))%nat /\ (forall b, snd f = Len b -> length b < length (ser_field f))%nat.
Proof.
  unfold ser_field. rewrite app_length.
  assert (H : (1 <= length (varint (fst f * 8 + wire_type (snd f))))%nat).
  { unfold varint. pose proof (varint_aux_not_nil (N.size_nat (fst f * 8 + wire_type (snd f))) (fst f * 8 + wire_type (snd f))) as H.
    destruct (varint_aux _ _); [contradiction|]. cbn [length]. lia. }
  split; [lia|]. intros b E. rewrite E in *. rewrite app_length. lia.
Qed.
Lemma parse_ok fs : Forall (fun f => payload_ok (snd f)) fs -> forall fuel, (length (ser fs) <= fuel)%nat -> parse fuel (ser fs) = Some fs.
Proof.
  induction 1 as [|[t p] fs Hp _ IH]; intros fuel Hf.
  - destruct fuel; reflexivity.
  - unfold ser in *. cbn [flat_map] in *. pose proof (ser_field_length (t, p)) as [Hl _]. rewrite app_length in Hf.
    destruct fuel as [|fuel]; [lia|].
    destruct (ser_field (t, p) ++ flat_map ser_field fs) as [|b0 rest] eqn:E.
    { apply (f_equal (@length N)) in E. rewrite app_length in E. cbn [length] in E. lia. }
    cbn [parse]. rewrite <- E. unfold ser_field at 1. cbn [fst snd]. rewrite <- app_assoc, varint_ok.
    destruct (key_ok t p) as [-> ->]. rewrite payload_read by exact Hp.
    rewrite IH; [reflexivity|]. lia.
Qed.
Lemma ser_contains fs t b : In (t, Len b) fs -> (length b < length (ser fs))%nat.
Proof.
  unfold ser. induction fs as [|f fs IH]; intros []; cbn [flat_map]; rewrite app_length.
  - subst f. pose proof (proj2 (ser_field_length (t, Len b)) b eq_refl). lia.
  - specialize (IH H). lia.
Qed.

(** ** Messages *)
Lemma vals_app a b t : vals (a ++ b) t = vals a t ++ vals b t.
Proof. unfold vals. rewrite filter_app, map_app. reflexivity. Qed.
Lemma vals_col t' ps t : vals (map (pair t') ps) t = if t' =? t then ps else [].
Proof.
  unfold vals. induction ps as [|p ps IH]; cbn [map filter fst]; [destruct (t' =? t); reflexivity|].
  destruct (t' =? t); cbn [map snd]; [f_equal|]; exact IH.
Qed.
Fixpoint col (cols : list (N * list payload)) (t : N) : list payload :=
  match cols with [] => [] | (t', ps) :: cols => (if t' =? t then ps else []) ++ col cols t end.
Lemma vals_fields cols t : vals (fields cols) t = col cols t.
Proof.
  unfold fields. induction cols as [|[t' ps] cols IH]; [reflexivity|]. cbn [flat_map col fst snd].
  rewrite vals_app, vals_col, IH. reflexivity.
Qed.
Lemma fields_all (P : payload -> Prop) cols : Forall (fun c => Forall P (snd c)) cols -> Forall (fun f => P (snd f)) (fields cols).
Proof.
  unfold fields. induction 1 as [|[t ps] cols Hc _ IH]; [constructor|]. cbn [flat_map fst snd] in *.
  apply Forall_app. split; [|exact IH]. apply Forall_map. exact Hc.
Qed.
Lemma fields_tags known cols : forallb (fun c => existsb (N.eqb (fst c)) known) cols = true ->
  forallb (fun x => existsb (N.eqb (fst x)) known) (fields cols) = true.
Proof.
  unfold fields. induction cols as [|[t ps] cols IH]; [reflexivity|]. cbn [flat_map forallb fst snd].
  intros (H1 & H2)%andb_prop. rewrite forallb_app, IH by exact H2. rewrite andb_true_r.
  induction ps as [|p ps IHp]; [reflexivity|]. cbn [map forallb fst]. rewrite H1. exact IHp.
Qed.
(** A message is read from its columns. *)
Lemma message_ok {T} known (f : (N -> list payload) -> option T) cols x :
  Forall (fun c => Forall payload_ok (snd c)) cols -> forallb (fun c => existsb (N.eqb (fst c)) known) cols = true ->
  (forall get, (forall t, get t = col cols t) -> f get = Some x) -> read_message known f (message cols) = Some x.
Proof.
  intros H1 H2 H3. unfold read_message, message. rewrite parse_ok by (try apply fields_all; auto).
  rewrite fields_tags by exact H2. apply H3. intros t. apply vals_fields.
Qed.
Lemma message_contains cols t b : In (t, [Len b]) cols -> (length b < length (message cols))%nat.
Proof.
  intros H. unfold message. apply (ser_contains _ t). unfold fields. apply in_flat_map. exists (t, [Len b]). split; [exact H|left; reflexivity].
Qed.
Lemma message_contains_all cols t l b : In (t, w_msgs l) cols -> In b l -> (length b < length (message cols))%nat.
Proof.
  intros H Hb. unfold message. apply (ser_contains _ t). unfold fields. apply in_flat_map. exists (t, w_msgs l). split; [exact H|].
  cbn [fst snd]. unfold w_msgs. rewrite map_map. apply (in_map (fun x => (t, Len x))). exact Hb.
Qed.

(** ** Field types *)
Lemma str_ok s : text s -> r_str (w_str s) = Some s.
Proof. intros H. destruct s; [reflexivity|]. unfold w_str, r_str. apply utf8_roundtrip, H. Qed.
Lemma bytes_ok b : r_bytes (w_bytes b) = Some b.
Proof. destruct b; reflexivity. Qed.
Lemma uint32_ok n : u32 n -> r_uint32 (w_uint32 n) = Some n.
Proof. unfold u32, w_uint32. intros H. destruct (N.eqb_spec n 0) as [->|]; [reflexivity|]. cbn [r_uint32]. destruct (N.ltb_spec n (2 ^ 32)); [reflexivity|lia]. Qed.
Lemma fixed32_ok n : r_fixed32 (w_fixed32 n) = Some n.
Proof. unfold w_fixed32. destruct (N.eqb_spec n 0) as [->|]; reflexivity. Qed.
Lemma fixed64_ok n : r_fixed64 (w_fixed64 n) = Some n.
Proof. unfold w_fixed64. destruct (N.eqb_spec n 0) as [->|]; reflexivity. Qed.
Lemma time_ok z : time z -> r_time (w_time z) = Some z.
Proof. unfold time, r_time, w_time. intros H. rewrite fixed64_ok. cbn [option_map]. rewrite Z2N.id by lia. reflexivity. Qed.
Lemma signed_ok z : i64 z -> signed (u64_of_z z) = z.
Proof.
  unfold i64, signed, u64_of_z. intros H. pose proof (Z.mod_pos_bound z (2 ^ 64) ltac:(lia)) as Hm.
  rewrite Z2N.id by lia. destruct (Z.lt_ge_cases z 0).
  - assert (E : (z mod 2 ^ 64 = z + 2 ^ 64)%Z). { rewrite <- (Z_mod_plus_full z 1 (2 ^ 64)), Z.mod_small; lia. }
    rewrite E in *. destruct (N.ltb_spec (Z.to_N (z + 2 ^ 64)) (2 ^ 63)); lia.
  - rewrite Z.mod_small in * by lia. destruct (N.ltb_spec (Z.to_N z) (2 ^ 63)); lia.
Qed.
Lemma u64_of_z_lt z : u64_of_z z < 2 ^ 64.
Proof. unfold u64_of_z. pose proof (Z.mod_pos_bound z (2 ^ 64) ltac:(lia)). lia. Qed.
Lemma enum_ok z : i32 z -> r_enum (w_enum z) = Some z.
Proof.
  unfold w_enum. intros H. destruct (Z.eqb_spec z 0) as [->|]; [reflexivity|]. cbn [r_enum]. rewrite signed_ok; [reflexivity|].
  unfold i32 in H. unfold i64. lia.
Qed.
Lemma bool_ok b : r_bool (w_bool b) = Some b.
Proof. destruct b; reflexivity. Qed.
Lemma bits_lt f : bits f < 2 ^ 64.
Proof.
  unfold bits, f64_bits, bits_of_b64. pose proof (bits_of_binary_float_range 52 11 eq_refl eq_refl f) as H.
  change (52 + 11 + 1)%Z with 64%Z in H. lia.
Qed.
Lemma float_ok f : float (bits f) = f.
Proof.
  unfold float, bits, f64_from_bits, f64_bits, bits_of_b64, b64_of_bits.
  pose proof (bits_of_binary_float_range 52 11 eq_refl eq_refl f) as H. rewrite Z2N.id by lia.
  exact (binary_float_of_bits_of_binary_float 52 11 eq_refl eq_refl eq_refl f).
Qed.
Lemma double_ok f : (f64_eqb f (f64_of_Z 0) = true -> f = f64_of_Z 0) -> r_double (w_double f) = Some f.
Proof.
  intros H. unfold w_double. destruct (f64_eqb f (f64_of_Z 0)); [rewrite (H eq_refl); reflexivity|]. cbn [r_double]. rewrite float_ok. reflexivity.
Qed.
Lemma odouble_ok o : r_odouble (w_odouble o) = Some o.
Proof. destruct o as [f|]; [|reflexivity]. cbn [w_odouble r_odouble]. rewrite float_ok. reflexivity. Qed.
Lemma zigzag_ok z : i32 z -> (if N.even (zigzag z) then Z.of_N (zigzag z / 2) else - Z.of_N (zigzag z / 2) - 1)%Z = z.
Proof.
  unfold i32, zigzag. intros H. rewrite Z.shiftl_mul_pow2, Z.shiftr_div_pow2 by lia.
  change (2 ^ 1)%Z with 2%Z. destruct (Z.lt_ge_cases z 0) as [Hz|Hz].
  - assert (E : (z / 2 ^ 31 = -1)%Z). { symmetry. apply (Z.div_unique z (2 ^ 31) (-1) (z + 2 ^ 31)); lia. }
    rewrite E, Z.lxor_m1_r. unfold Z.lnot. rewrite Z.mod_small by lia.
    replace (Z.to_N (Z.pred (- (z * 2)))) with (2 * Z.to_N (- z - 1) + 1) by lia.
    rewrite N.even_add, N.even_mul. cbn [N.even orb Bool.eqb negb].
    replace ((2 * Z.to_N (- z - 1) + 1) / 2) with (Z.to_N (- z - 1)); [cbn; lia|].
    apply (N.div_unique _ 2 _ 1); lia.
  - assert (E : (z / 2 ^ 31 = 0)%Z) by (apply Z.div_small; lia).
    rewrite E, Z.lxor_0_r, Z.mod_small by lia.
    replace (Z.to_N (z * 2)) with (2 * Z.to_N z) by lia.
    rewrite N.even_mul. cbn [N.even orb]. rewrite N.mul_comm, N.div_mul by discriminate. lia.
Qed.
Lemma sint32_ok z : i32 z -> r_sint32 (w_sint32 z) = Some z.
Proof.
  unfold w_sint32. intros H. destruct (Z.eqb_spec z 0) as [->|]; [reflexivity|]. unfold r_sint32. f_equal. apply zigzag_ok, H.
Qed.
Lemma msgs_ok {T} (enc : T -> list N) f l : (forall x, In x l -> f (enc x) = Some x) -> r_msgs f (w_msgs (map enc l)) = Some l.
Proof.
  unfold r_msgs, w_msgs. rewrite !map_map. induction l as [|x l IH]; intros H; [reflexivity|].
  cbn [map all_some]. rewrite (H x (or_introl eq_refl)), IH by (intros y Hy; apply H; right; exact Hy). reflexivity.
Qed.
Lemma msgs_range {T} (enc : T -> list N) f (P : T -> Prop) l : (forall x, P x -> f (enc x) = Some x) -> Forall P l ->
  r_msgs f (w_msgs (map enc l)) = Some l.
Proof. intros H Hl. apply msgs_ok. intros x Hx. apply H. rewrite Forall_forall in Hl. apply Hl, Hx. Qed.
Lemma msg_ok {T} f b (x : T) : f b = Some x -> r_msg f (w_msg b) = Some x.
Proof. intros H. exact H. Qed.
Lemma omsg_ok {T} (enc : T -> list N) f o : (forall x, o = Some x -> f (enc x) = Some x) -> r_omsg f (w_omsg (option_map enc o)) = Some o.
Proof. intros H. destruct o as [x|]; [|reflexivity]. cbn [option_map w_omsg r_omsg]. rewrite (H x eq_refl). reflexivity. Qed.
Lemma unpack_ok {T} (enc : T -> list N) rd l : Forall (fun x => forall r, rd (enc x ++ r) = Some (x, r)) l -> Forall (fun x => enc x <> []) l ->
  forall fuel, (length (flat_map enc l) <= fuel)%nat -> unpack rd fuel (flat_map enc l) = Some l.
Proof.
  induction 1 as [|x l Hx _ IH]; intros Hn fuel Hf; [destruct fuel; reflexivity|]. inversion Hn as [|? ? Hx0 Hl0]; subst.
  cbn [flat_map] in *. rewrite app_length in Hf. destruct (enc x ++ flat_map enc l) as [|b rest] eqn:E.
  { destruct (enc x); [contradiction|discriminate]. }
  destruct fuel as [|fuel]. { destruct (enc x); [contradiction|]. cbn [length] in Hf. lia. }
  cbn [unpack]. rewrite <- E, Hx, IH; [reflexivity|exact Hl0|]. destruct (enc x); [contradiction|]. cbn [length] in Hf. lia.
Qed.
Lemma packed_ok {T} (enc : T -> list N) rd l : Forall (fun x => forall r, rd (enc x ++ r) = Some (x, r)) l -> Forall (fun x => enc x <> []) l ->
  r_packed rd (w_packed enc l) = Some l.
Proof.
  intros H1 H2. destruct l as [|x l]; [reflexivity|]. unfold w_packed, r_packed. apply unpack_ok; auto.
Qed.
Lemma packed_fixed64_ok l : Forall u64 l -> r_packed (read_le 8) (w_packed (le_bytes 8) l) = Some l.
Proof.
  intros H. apply packed_ok; [|apply Forall_forall; discriminate]. eapply Forall_impl; [|exact H]. intros n Hn r. apply le_bytes_ok. exact Hn.
Qed.
Lemma packed_double_ok l : r_packed rd_double (w_packed (fun f => le_bytes 8 (bits f)) l) = Some l.
Proof.
  apply packed_ok; apply Forall_forall; [|discriminate]. intros f _ r. unfold rd_double. rewrite le_bytes_ok, float_ok; [reflexivity|apply bits_lt].
Qed.
Lemma packed_varint_ok l : r_packed read_varint (w_packed varint l) = Some l.
Proof.
  apply packed_ok; apply Forall_forall; intros n _; [apply varint_ok|apply varint_aux_not_nil].
Qed.

(** Everything written fits its wire type. *)
Lemma ok_str s : Forall payload_ok (w_str s).
Proof. destruct s; repeat constructor. Qed.
Lemma ok_bytes b : Forall payload_ok (w_bytes b).
Proof. destruct b; repeat constructor. Qed.
Lemma ok_uint32 n : Forall payload_ok (w_uint32 n).
Proof. unfold w_uint32. destruct (n =? 0); repeat constructor. Qed.
Lemma ok_fixed32 n : u32 n -> Forall payload_ok (w_fixed32 n).
Proof. unfold w_fixed32. destruct (n =? 0); repeat constructor. assumption. Qed.
Lemma ok_fixed64 n : u64 n -> Forall payload_ok (w_fixed64 n).
Proof. unfold w_fixed64. destruct (n =? 0); repeat constructor. assumption. Qed.
Lemma ok_time z : time z -> Forall payload_ok (w_time z).
Proof. intros H. apply ok_fixed64. unfold time in H. unfold u64. lia. Qed.
Lemma ok_enum z : Forall payload_ok (w_enum z).
Proof. unfold w_enum. destruct (z =? 0)%Z; repeat constructor. Qed.
Lemma ok_bool b : Forall payload_ok (w_bool b).
Proof. destruct b; repeat constructor. Qed.
Lemma ok_double f : Forall payload_ok (w_double f).
Proof. unfold w_double. destruct (f64_eqb f _); repeat constructor. apply bits_lt. Qed.
Lemma ok_odouble f : Forall payload_ok (w_odouble f).
Proof. destruct f; repeat constructor. apply bits_lt. Qed.
Lemma ok_sint32 z : Forall payload_ok (w_sint32 z).
Proof. unfold w_sint32. destruct (z =? 0)%Z; repeat constructor. Qed.
Lemma ok_msg b : Forall payload_ok (w_msg b).
Proof. repeat constructor. Qed.
Lemma ok_omsg b : Forall payload_ok (w_omsg b).
Proof. destruct b; repeat constructor. Qed.
Lemma ok_msgs l : Forall payload_ok (w_msgs l).
Proof. apply Forall_map, Forall_forall. intros; exact I. Qed.
Lemma ok_attrs l : Forall payload_ok (w_attrs l).
Proof. apply ok_msgs. Qed.
Lemma ok_packed {T} enc (l : list T) : Forall payload_ok (w_packed enc l).
Proof. destruct l; repeat constructor. Qed.
Lemma ok_num a b v : Forall payload_ok (snd (num_cols a b v)).
Proof. destruct v; repeat constructor; [apply u64_of_z_lt|apply bits_lt]. Qed.
Lemma ok_data d : Forall payload_ok (snd (data_cols d)).
Proof. destruct d; repeat constructor. Qed.

Global Hint Resolve ok_str ok_bytes ok_uint32 ok_fixed32 ok_fixed64 ok_time ok_enum ok_bool ok_double ok_odouble ok_sint32 ok_msg ok_omsg ok_msgs ok_attrs ok_packed ok_num ok_data : proto.

(** ** The messages *)
Ltac columns := let g := fresh "get" in let H := fresh "Hget" in intros g H; rewrite !H; cbn [col N.eqb Pos.eqb List.app]; rewrite ?app_nil_r.
Ltac cols_ok := repeat (apply Forall_cons; [solve [cbn [snd]; auto with proto | cbn [snd]; repeat constructor; first [apply u64_of_z_lt | apply bits_lt]]|]); apply Forall_nil.
Ltac msg := apply message_ok; [cols_ok | reflexivity | columns].

(** Induction over values. *)
Lemma any_rect' (P : any -> Prop) :
  (forall s, P (PString s)) -> (forall b, P (PBool b)) -> (forall z, P (PInt z)) -> (forall f, P (PDouble f)) ->
  (forall l, Forall P l -> P (PArray l)) -> (forall l, Forall (fun kv => P (snd kv)) l -> P (PKvlist l)) -> (forall b, P (PBytes b)) ->
  forall v, P v.
Proof.
  intros H1 H2 H3 H4 H5 H6 H7. fix IH 1. intros [s|b|z|f|l|l|b]; [apply H1|apply H2|apply H3|apply H4|apply H5|apply H6|apply H7].
  - induction l as [|v l IHl]; constructor; [apply IH|exact IHl].
  - induction l as [|[k v] l IHl]; constructor; [apply IH|exact IHl].
Qed.

Lemma range_array l : any_in_range (PArray l) <-> Forall any_in_range l.
Proof.
  cbn [any_in_range]. induction l as [|v l IH]; [split; auto|]. rewrite IH. split; [intros []; constructor; auto|inversion 1; auto].
Qed.
Lemma range_kvlist l : any_in_range (PKvlist l) <-> kvs_in_range l.
Proof.
  unfold kvs_in_range. cbn [any_in_range]. induction l as [|[k v] l IH]; [split; auto|]. rewrite IH.
  split; [intros []; constructor; auto|inversion 1; auto].
Qed.

Lemma one_field t p : payload_ok p -> parse (length (message [(t, [p])])) (message [(t, [p])]) = Some [(t, p)].
Proof. intros H. unfold message. rewrite parse_ok; [reflexivity| |reflexivity]. cbn [fields flat_map map fst snd List.app]. constructor; [exact H|constructor]. Qed.
Lemma any_aux_ok : forall v fuel, any_in_range v -> (length (any_bytes v) < fuel)%nat -> read_any_aux fuel (any_bytes v) = Some v.
Proof.
  induction v as [s|b|z|f|l IH|l IH|b] using any_rect'; intros [|fuel] Hr Hf; try lia; cbn [read_any_aux any_bytes] in *;
  (rewrite one_field by (first [exact I | apply bits_lt])).
  - rewrite utf8_roundtrip by exact Hr. reflexivity.
  - destruct b; reflexivity.
  - rewrite signed_ok by exact Hr. reflexivity.
  - rewrite float_ok. reflexivity.
  - apply range_array in Hr. rewrite (message_ok _ _ _ l); [reflexivity|cols_ok|reflexivity|]. columns.
    apply msgs_ok. intros x Hx. rewrite Forall_forall in IH, Hr. apply IH; [exact Hx|apply Hr, Hx|].
    pose proof (message_contains_all [(1, w_msgs (map any_bytes l))] 1 _ (any_bytes x) (or_introl eq_refl) (in_map _ _ _ Hx)).
    pose proof (message_contains [(5, [Len (message [(1, w_msgs (map any_bytes l))])])] 5 _ (or_introl eq_refl)). lia.
  - apply range_kvlist in Hr. set (enc := fun kv : str * any => message [(1, w_str (fst kv)); (2, w_msg (any_bytes (snd kv)))]) in *.
    rewrite (message_ok _ _ _ l); [reflexivity|cols_ok|reflexivity|]. columns.
    apply msgs_ok. intros [k v] Hx. unfold kvs_in_range in Hr. rewrite Forall_forall in IH, Hr. specialize (IH _ Hx). destruct (Hr _ Hx) as [Hk Hv]. cbn [fst snd] in *.
    unfold enc. msg. cbn [fst snd].
    rewrite str_ok by exact Hk. unfold w_msg, r_msg. rewrite IH; [reflexivity|exact Hv|].
    pose proof (message_contains_all [(1, w_msgs (map enc l))] 1 _ (enc (k, v)) (or_introl eq_refl) (in_map _ _ _ Hx)).
    pose proof (message_contains [(6, [Len (message [(1, w_msgs (map enc l))])])] 6 _ (or_introl eq_refl)).
    pose proof (message_contains [(1, w_str k); (2, w_msg (any_bytes v))] 2 _ (or_intror (or_introl eq_refl))) as Hlast.
    change (message [(1, w_str k); (2, w_msg (any_bytes v))]) with (enc (k, v)) in Hlast. lia.
  - reflexivity.
Qed.
Lemma any_ok v : any_in_range v -> read_any (any_bytes v) = Some v.
Proof. intros H. apply any_aux_ok; [exact H|lia]. Qed.
Lemma kv_ok kv : wf_str (fst kv) = true /\ any_in_range (snd kv) -> read_kv (kv_bytes kv) = Some kv.
Proof.
  intros [Hk Hv]. unfold read_kv, kv_bytes. msg. rewrite str_ok by exact Hk. rewrite (msg_ok _ _ _ (any_ok _ Hv)). destruct kv; reflexivity.
Qed.
Lemma attrs_ok l : kvs_in_range l -> r_msgs read_kv (w_attrs l) = Some l.
Proof. intros H. apply (msgs_range kv_bytes _ _ _ kv_ok H). Qed.
Lemma scope_ok s : scope_in_range s -> read_scope (scope_bytes s) = Some s.
Proof.
  intros (H1 & H2 & H3). unfold read_scope, scope_bytes. msg. rewrite !str_ok, attrs_ok by assumption. destruct s; reflexivity.
Qed.
Lemma resource_ok a : kvs_in_range a -> read_resource (resource_bytes a) = Some a.
Proof. intros H. unfold read_resource, resource_bytes. msg. apply attrs_ok, H. Qed.
Lemma event_ok e : event_in_range e -> read_event (event_bytes e) = Some e.
Proof.
  intros (H1 & H2 & H3 & H4). unfold read_event, event_bytes. msg.
  rewrite time_ok, str_ok, attrs_ok, uint32_ok by assumption. destruct e; reflexivity.
Qed.
Lemma link_ok l : link_in_range l -> read_link (link_bytes l) = Some l.
Proof.
  intros (H1 & H2 & H3 & H4). unfold read_link, link_bytes. msg.
  rewrite !bytes_ok, str_ok, attrs_ok, uint32_ok, fixed32_ok by assumption. destruct l; reflexivity.
Qed.
Lemma status_ok m c : text m -> i32 c -> read_status (status_bytes m c) = Some (m, c).
Proof. intros H1 H2. unfold read_status, status_bytes. msg. rewrite str_ok, enum_ok by assumption. reflexivity. Qed.
Lemma span_ok s : span_in_range s -> read_span (span_bytes s) = Some s.
Proof.
  intros (H1 & H2 & H3 & H4 & H5 & H6 & H7 & H8 & H9 & H10 & H11 & H12 & H13 & H14). unfold read_span, span_bytes. msg.
  rewrite !bytes_ok, !str_ok, !enum_ok, !time_ok, attrs_ok, !uint32_ok by assumption.
  rewrite (msgs_range _ _ _ _ event_ok H9), (msgs_range _ _ _ _ link_ok H11), (msg_ok _ _ _ (status_ok _ _ H14 H13)), fixed32_ok.
  destruct s; reflexivity.
Qed.
Lemma log_ok l : log_in_range l -> read_log (log_bytes l) = Some l.
Proof.
  intros (H1 & H2 & H3 & H4 & H5 & H6 & H7 & H8). unfold read_log, log_bytes. msg.
  rewrite !time_ok, enum_ok, !str_ok, attrs_ok, fixed32_ok, !bytes_ok by assumption.
  rewrite omsg_ok; [destruct l; reflexivity|]. intros x E. apply any_ok. rewrite E in H7. exact H7.
Qed.
Lemma exemplar_ok e : exemplar_in_range e -> read_exemplar (exemplar_bytes e) = Some e.
Proof.
  intros (H1 & H2 & H3). unfold read_exemplar, exemplar_bytes. destruct e as [a t sp tr [z|f]]; cbn [px_attrs px_time px_span px_trace px_value num_cols] in *.
  all: msg.
  all: rewrite time_ok, !bytes_ok, attrs_ok by assumption; cbn [r_num]; rewrite ?float_ok, ?signed_ok by assumption; reflexivity.
Qed.
Lemma npoint_ok p : npoint_in_range p -> read_npoint (npoint_bytes p) = Some p.
Proof.
  intros (H1 & H2 & H3 & H4 & H5). unfold read_npoint, npoint_bytes. destruct p as [a s t ex [z|f]]; cbn [pn_attrs pn_start pn_time pn_ex pn_value num_cols] in *.
  all: msg.
  all: rewrite !time_ok, attrs_ok by assumption; cbn [r_num]; rewrite (msgs_range _ _ _ _ exemplar_ok H4), ?float_ok, ?signed_ok by assumption; reflexivity.
Qed.
Lemma hpoint_ok p : hpoint_in_range p -> read_hpoint (hpoint_bytes p) = Some p.
Proof.
  intros (H1 & H2 & H3 & H4 & H5 & H6). unfold read_hpoint, hpoint_bytes. msg.
  rewrite !time_ok, fixed64_ok, !odouble_ok, packed_fixed64_ok, packed_double_ok, attrs_ok by assumption.
  rewrite (msgs_range _ _ _ _ exemplar_ok H6). destruct p; reflexivity.
Qed.
Lemma buckets_ok b : i32 (fst b) -> read_buckets (buckets_bytes b) = Some b.
Proof. intros H. unfold read_buckets, buckets_bytes. msg. rewrite sint32_ok, packed_varint_ok by assumption. destruct b; reflexivity. Qed.
Lemma epoint_ok p : epoint_in_range p -> read_epoint (epoint_bytes p) = Some p.
Proof.
  intros (H1 & H2 & H3 & H4 & H5 & H6 & H7 & H8 & H9 & H10 & H11 & H12). unfold read_epoint, epoint_bytes. msg.
  rewrite !time_ok, !fixed64_ok, !odouble_ok, sint32_ok, attrs_ok, double_ok by assumption.
  rewrite !(msg_ok _ _ _ (buckets_ok _ H7)), !(msg_ok _ _ _ (buckets_ok _ H9)), (msgs_range _ _ _ _ exemplar_ok H11). destruct p; reflexivity.
Qed.
Lemma metric_ok m : metric_in_range m -> read_metric (metric_bytes m) = Some m.
Proof.
  intros (H1 & H2 & H3 & H4). unfold read_metric, metric_bytes. destruct m as [n d u [ps|ps t mono|ps t|ps t]]; cbn [pm_name pm_desc pm_unit pm_data data_cols] in *.
  all: msg.
  all: rewrite !str_ok by assumption; cbn [r_data].
  - erewrite message_ok; [reflexivity|cols_ok|reflexivity|]. columns. rewrite (msgs_range _ _ _ _ npoint_ok H4). reflexivity.
  - destruct H4 as [H4 H5]. erewrite message_ok; [reflexivity|cols_ok|reflexivity|]. columns.
    rewrite (msgs_range _ _ _ _ npoint_ok H4), enum_ok, bool_ok by assumption. reflexivity.
  - destruct H4 as [H4 H5]. erewrite message_ok; [reflexivity|cols_ok|reflexivity|]. columns.
    rewrite (msgs_range _ _ _ _ hpoint_ok H4), enum_ok by assumption. reflexivity.
  - destruct H4 as [H4 H5]. erewrite message_ok; [reflexivity|cols_ok|reflexivity|]. columns.
    rewrite (msgs_range _ _ _ _ epoint_ok H4), enum_ok by assumption. reflexivity.
Qed.

Section request.
Context {T : Type} (enc : T -> list N) (dec : list N -> option T) (P : T -> Prop) (Hok : forall x, P x -> dec (enc x) = Some x).
Lemma scoped_ok g : scope_in_range (g_scope g) /\ text (g_url g) /\ Forall P (g_items g) -> read_scoped dec (scoped_bytes enc g) = Some g.
Proof using Hok.
  intros (H1 & H2 & H3). unfold read_scoped, scoped_bytes. msg.
  rewrite (msg_ok _ _ _ (scope_ok _ H1)), (msgs_range _ _ _ _ Hok H3), str_ok by assumption. destruct g; reflexivity.
Qed.
Lemma resourced_ok r : resourced_in_range P r -> read_resourced dec (resourced_bytes enc r) = Some r.
Proof using Hok.
  intros (H1 & H2 & H3). unfold read_resourced, resourced_bytes. msg.
  rewrite (msg_ok _ _ _ (resource_ok _ H1)), (msgs_range _ _ _ _ scoped_ok H3), str_ok by assumption. destruct r; reflexivity.
Qed.
Lemma request_ok rs : Forall (resourced_in_range P) rs -> read_request dec (request_bytes enc rs) = Some rs.
Proof using Hok. intros H. unfold read_request, request_bytes. msg. apply (msgs_range _ _ _ _ resourced_ok H). Qed.
End request.
