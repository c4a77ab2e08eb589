(** C88: what the log and tracing bridges hand to the logs API. *)
From Coq Require Import List Arith NArith ZArith Bool Lia String.
From Verif Require Import Str StrProofs F64 ContextModel TraceModel LogModel LogProps OtlpModel PropSpec PropProofs JsonModel JsonProofs BridgeModel.
Import ListNotations.
Local Open Scope Z_scope.

(** ** Integers *)
(** Decimal text read back. *)
Definition read_decimal (s : str) : option Z :=
  match s with
  | 45%N :: r => option_map (fun n => - Z.of_N n) (dec_value r)
  | _ => option_map Z.of_N (dec_value s)
  end.
Definition number_in (a : lany) : option Z := match a with LInt z => Some z | LString s => read_decimal s | _ => None end.

Lemma dec_of_value n : (n < 10 ^ 40)%N -> dec_value (dec_of 40 n) = Some n.
Proof.
  intros Hn. pose proof (dec_of_digits 40 n (10 ^ 40) Hn Hn) as H. rewrite dec_digits_spec in H by reflexivity.
  destruct (dec_value (dec_of 40 n)) as [v|]; [|discriminate]. destruct (v <? 10 ^ 40)%N; [exact H|discriminate].
Qed.
Lemma read_show z : - 10 ^ 39 < z < 10 ^ 39 -> read_decimal (show_int z) = Some z.
Proof.
  intros Hz. assert (H10 : (10 ^ 40)%N = Z.to_N (10 ^ 40)) by reflexivity. unfold show_int. destruct (Z.ltb_spec z 0).
  - unfold read_decimal. rewrite dec_of_value by lia. cbn [option_map]. f_equal. lia.
  - pose proof (dec_of_value (Z.to_N z) ltac:(lia)) as E. destruct (dec_of_shape 40 (Z.to_N z) ltac:(lia)) as [Hne Hd].
    destruct (dec_of 40 (Z.to_N z)) as [|c r]; [contradiction|]. inversion Hd as [|? ? Hc _]; subst.
    assert (Hr : read_decimal (c :: r) = option_map Z.of_N (dec_value (c :: r))).
    { unfold read_decimal. destruct (N.eq_dec c 45); [lia|]. destruct c as [|p]; [reflexivity|].
      do 6 (destruct p as [p|p|]; try reflexivity). congruence. }
    rewrite Hr, E. cbn [option_map]. f_equal. lia.
Qed.

(** An integer of any Rust type is found again, as a number when it fits i64. *)
Theorem C88_integers : forall z, - 2 ^ 127 <= z < 2 ^ 128 ->
  number_in (int_value z) = Some z /\ (- 2 ^ 63 <= z < 2 ^ 63 <-> int_value z = LInt z).
Proof.
  intros z Hz. unfold int_value. destruct (Z.leb_spec (- 2 ^ 63) z); [destruct (Z.ltb_spec z (2 ^ 63))|]; cbn [andb number_in].
  - split; [reflexivity|]. split; auto.
  - split; [apply read_show; split; [eapply Z.lt_le_trans; [|apply Hz]; reflexivity|eapply Z.lt_trans; [apply Hz|reflexivity]]|].
    split; [lia|discriminate].
  - split; [apply read_show; split; [eapply Z.lt_le_trans; [|apply Hz]; reflexivity|eapply Z.lt_trans; [apply Hz|reflexivity]]|].
    split; [lia|discriminate].
Qed.
Print Assumptions C88_integers.

(** Without serde: booleans, text and floats as they are, integers as above, the rest as text. *)
Definition carries (v : kvalue) (a : lany) : Prop :=
  match v with
  | KBool b => a = LBool b
  | KStr s | KAny s => a = LString s
  | KFloat f => a = LDouble f
  | KInt z => number_in a = Some z /\ (- 2 ^ 63 <= z < 2 ^ 63 -> a = LInt z)
  end.
Theorem C88_plain_values : forall v, (forall z, v = KInt z -> - 2 ^ 127 <= z < 2 ^ 128) -> carries v (plain_value v).
Proof.
  intros [b|s|z|f|t] H; try reflexivity. destruct (C88_integers z (H z eq_refl)) as [H1 H2]. split; [exact H1|apply H2].
Qed.
Print Assumptions C88_plain_values.

(** ** Values given to serde *)
Section sval_ind.
Context (P : sval -> Prop).
Context (Hleaf : forall v, match v with SSome _ | SNewtypeStruct _ | SNewtypeVariant _ _ | SSeq _ | STuple _ | STupleStruct _ | STupleVariant _ _
  | SMap _ | SStruct _ | SStructVariant _ _ => True | _ => P v end).
Context (Hsome : forall v, P v -> P (SSome v)).
Context (Hnew : forall v, P v -> P (SNewtypeStruct v)).
Context (Hnewv : forall n v, P v -> P (SNewtypeVariant n v)).
Context (Hseq : forall l, Forall P l -> P (SSeq l) /\ P (STuple l) /\ P (STupleStruct l) /\ forall n, P (STupleVariant n l)).
Context (Hmap : forall l, Forall (fun kv => P (fst kv) /\ P (snd kv)) l -> P (SMap l)).
Context (Hstruct : forall l : list (str * sval), Forall (fun kv => P (snd kv)) l -> P (SStruct l) /\ forall n, P (SStructVariant n l)).
Lemma sval_ind' : forall v, P v.
Proof.
  fix IH 1. intros v.
  assert (L : forall l, Forall P l) by (fix IL 1; intros [|x l]; constructor; [apply IH|apply IL]).
  assert (S : forall l : list (str * sval), Forall (fun kv => P (snd kv)) l) by (fix IL 1; intros [|x l]; constructor; [apply IH|apply IL]).
  destruct v; try exact (Hleaf SNone); try exact (Hleaf SUnit); try exact (Hleaf SFail).
  - exact (Hleaf (SBool b)). - exact (Hleaf (SInt z)). - exact (Hleaf (SFloat f)). - exact (Hleaf (SChar c)).
  - exact (Hleaf (SStr s)). - exact (Hleaf (SBytes b)).
  - apply Hsome, IH. - exact (Hleaf (SUnitStruct name)). - exact (Hleaf (SUnitVariant variant)).
  - apply Hnew, IH. - apply Hnewv, IH.
  - apply Hseq, L. - apply Hseq, L. - apply Hseq, L. - apply Hseq, L.
  - apply Hmap. revert l. fix IL 1. intros [|x l]; constructor; [split; apply IH|apply IL].
  - apply Hstruct, S. - apply Hstruct, S.
Qed.
End sval_ind.

(** What a program means by null: unit, None, and wrappers of them. *)
Inductive null : sval -> Prop :=
| null_unit : null SUnit | null_none : null SNone
| null_some v : null v -> null (SSome v) | null_newtype v : null v -> null (SNewtypeStruct v).
(** A value one of whose parts refuses to be serialized. *)
Inductive broken : sval -> Prop :=
| br_fail : broken SFail
| br_some v : broken v -> broken (SSome v) | br_new v : broken v -> broken (SNewtypeStruct v)
| br_newv n v : broken v -> broken (SNewtypeVariant n v)
| br_seq l v : In v l -> broken v -> broken (SSeq l)
| br_tuple l v : In v l -> broken v -> broken (STuple l)
| br_tstruct l v : In v l -> broken v -> broken (STupleStruct l)
| br_tvar n l v : In v l -> broken v -> broken (STupleVariant n l)
| br_key l k v : In (k, v) l -> broken k -> broken (SMap l)
| br_val l k v : In (k, v) l -> broken v -> broken (SMap l)
| br_field l k v : In (k, v) l -> broken v -> broken (SStruct l)
| br_fieldv n l k v : In (k, v) l -> broken v -> broken (SStructVariant n l).

Section serde.
Context (debug : option lany -> str).
Notation ser := (serialize debug).

Lemma elements_none l : elements l = None <-> In None l.
Proof.
  induction l as [|r l IH]; cbn [elements fold_right In]; [split; [discriminate|intros []]|].
  fold (elements l). destruct r as [[v|]|], (elements l); split; intros H; try discriminate; try (left; reflexivity);
    try (right; apply IH; reflexivity); try reflexivity; destruct H as [H|H]; try discriminate; apply IH in H; discriminate.
Qed.
Definition entry_broken (kv : option str * outcome) : Prop := fst kv = None \/ snd kv = None.
Lemma entries_none l : entries l = None <-> Exists entry_broken l.
Proof.
  unfold entries. set (f := fun acc kv => _).
  assert (Hn : forall l, fold_left f l None = None) by (clear; induction l as [|x l IH]; [reflexivity|exact IH]).
  generalize (@nil (str * lany)). induction l as [|[k r] l IH]; intros m; cbn [fold_left].
  { split; [discriminate|]. intros H. inversion H. }
  unfold f at 2. cbn [fst snd]. destruct k as [k|], r as [[v|]|]; try (rewrite Hn; split; [intros _; left; unfold entry_broken; cbn [fst snd]; tauto|reflexivity]).
  all: rewrite IH; split; [intros H; right; exact H|]; intros H; inversion H as [? ? Hb|]; [|assumption]; destruct Hb as [Hb|Hb]; discriminate.
Qed.
Lemma om_none {A B} (g : A -> B) o : option_map g o = None <-> o = None.
Proof. destruct o; cbn [option_map]; split; intros H; congruence. Qed.
Lemma key_none o : key_text debug o = None <-> o = None.
Proof. destruct o as [[[]|]|]; split; intros; try discriminate; reflexivity. Qed.

(** A value with a broken part, and only such a value, is dropped with all its other parts. *)
Theorem C88_broken : forall v, ser v = None <-> broken v.
Proof.
  assert (Hl : forall l, Forall (fun v => ser v = None <-> broken v) l -> (elements (map ser l) = None <-> exists v, In v l /\ broken v)).
  { intros l IH. rewrite elements_none, in_map_iff. rewrite Forall_forall in IH. split; intros (v & H1 & H2); exists v; split; try apply IH; auto; apply IH; auto. }
  assert (Hs : forall l : list (str * sval), Forall (fun kv => ser (snd kv) = None <-> broken (snd kv)) l ->
    (entries (map (fun kv => (Some (fst kv), ser (snd kv))) l) = None <-> exists k v, In (k, v) l /\ broken v)).
  { intros l IH. rewrite entries_none, Exists_exists. rewrite Forall_forall in IH. split.
    - intros (x & Hi & Hb). apply in_map_iff in Hi. destruct Hi as ([k v] & <- & Hi). destruct Hb as [Hb|Hb]; [discriminate|].
      exists k, v. split; [exact Hi|]. apply (IH _ Hi). exact Hb.
    - intros (k & v & Hi & Hb). exists (Some k, ser v). split; [apply in_map_iff; exists (k, v); auto|]. right. apply (IH _ Hi). exact Hb. }
  apply sval_ind'.
  - intros []; try exact I; split; intros H; try discriminate; try (inversion H; fail); constructor.
  - intros v IH. cbn [serialize]. rewrite IH. split; intros H; [constructor; exact H|inversion H; assumption].
  - intros v IH. cbn [serialize]. rewrite IH. split; intros H; [constructor; exact H|inversion H; assumption].
  - intros n v IH. cbn [serialize]. unfold outcome. rewrite om_none, entries_none. split; intros H.
    + inversion H as [? ? [Hb|Hb]|? ? Hb]; [discriminate|constructor; apply IH; exact Hb|inversion Hb].
    + inversion H; subst. left. right. apply IH. assumption.
  - intros l IH. specialize (Hl l IH). cbn [serialize].
    unfold outcome. repeat match goal with |- _ /\ _ => split | |- forall _, _ => intros ? end; rewrite om_none, Hl; split; intros H;
      try (destruct H as (v & Hi & Hb); econstructor; eassumption); inversion H; subst; eauto.
  - intros l IH. cbn [serialize]. unfold outcome. rewrite om_none, entries_none, Exists_exists. rewrite Forall_forall in IH. split.
    + intros (x & Hi & Hb). apply in_map_iff in Hi. destruct Hi as ([k v] & <- & Hi). destruct (IH _ Hi) as [H1 H2]. cbn [fst snd] in *.
      destruct Hb as [Hb|Hb]; cbn [fst snd] in Hb; [apply key_none in Hb; eapply br_key; [exact Hi|tauto]|eapply br_val; [exact Hi|tauto]].
    + intros H. inversion H as [| | | | | | | |? k v Hi Hb|? k v Hi Hb| |]; subst;
        destruct (IH _ Hi) as [H1 H2]; cbn [fst snd] in *; (eexists; split; [apply in_map_iff; exists (k, v); split; [reflexivity|exact Hi]|]).
      * left. apply key_none. tauto.
      * right. cbn [fst snd]. tauto.
  - intros l IH. specialize (Hs l IH). cbn [serialize].
    unfold outcome. repeat match goal with |- _ /\ _ => split | |- forall _, _ => intros ? end; rewrite om_none, Hs; split; intros H;
      try (destruct H as (k & v & Hi & Hb); econstructor; eassumption); inversion H; subst; eauto.
Qed.

(** Exactly the nulls are left out, whatever wraps them. *)
Theorem C88_null : forall v, ser v = Some None <-> null v.
Proof.
  apply sval_ind'.
  - intros []; try exact I; split; intros H; try discriminate; try (inversion H; fail); constructor.
  - intros v IH. cbn [serialize]. rewrite IH. split; intros H; [constructor; exact H|inversion H; assumption].
  - intros v IH. cbn [serialize]. rewrite IH. split; intros H; [constructor; exact H|inversion H; assumption].
  - intros n v _. cbn [serialize]. split; [|intros H; inversion H]. destruct (entries _); discriminate.
  - intros l _. cbn [serialize]. repeat match goal with |- _ /\ _ => split | |- forall _, _ => intros ? end; (split; [destruct (elements _); discriminate|intros H; inversion H]).
  - intros l _. cbn [serialize]. split; [destruct (entries _); discriminate|intros H; inversion H].
  - intros l _. cbn [serialize]. repeat match goal with |- _ /\ _ => split | |- forall _, _ => intros ? end; (split; [destruct (entries _); discriminate|intros H; inversion H]).
Qed.

(** A value without parts is what it says. *)
Definition leaf (v : sval) (a : lany) : Prop :=
  match v with
  | SBool b => a = LBool b
  | SInt z => number_in a = Some z /\ (- 2 ^ 63 <= z < 2 ^ 63 -> a = LInt z)
  | SFloat f => a = LDouble f
  | SChar c => a = LString [c]
  | SStr s | SUnitStruct s | SUnitVariant s => a = LString s
  | SBytes b => a = LBytes b
  | _ => True
  end.
Theorem C88_leaves : forall v a, (forall z, v = SInt z -> - 2 ^ 127 <= z < 2 ^ 128) -> ser v = Some (Some a) -> leaf v a.
Proof.
  intros v a Hz H. destruct v; cbn in H; try exact I; try (injection H as <-; reflexivity).
  injection H as <-. destruct (C88_integers z (Hz z eq_refl)) as [H1 H2]. split; [exact H1|apply H2].
Qed.
(** What reaches the record: nothing for broken and null values, else the value. *)
Theorem C88_handed_over : forall v,
  (forall a, serde_value debug v = Some a <-> ser v = Some (Some a)) /\ (serde_value debug v = None <-> broken v \/ null v).
Proof.
  intros v. unfold serde_value. pose proof (C88_broken v) as Hb. pose proof (C88_null v) as Hn.
  destruct (ser v) as [[a|]|]; split; try (intros x); split; intros H; try congruence.
  - destruct H as [H|H]; [apply Hb in H|apply Hn in H]; discriminate.
  - right. apply Hn. reflexivity.
  - left. apply Hb. reflexivity.
Qed.

(** The elements of a sequence that are not null, in order. *)
Fixpoint somes (rs : list (option lany)) : list lany := match rs with [] => [] | Some a :: rs => a :: somes rs | None :: rs => somes rs end.
Theorem C88_sequences : forall l rs, Forall2 (fun v r => ser v = Some r) l rs ->
  ser (SSeq l) = Some (Some (LList (somes rs))) /\ ser (STuple l) = Some (Some (LList (somes rs))) /\
  ser (STupleStruct l) = Some (Some (LList (somes rs))) /\
  forall n, ser (STupleVariant n l) = Some (Some (LMap [(n, LList (somes rs))])).
Proof.
  intros l rs H. assert (E : elements (map ser l) = Some (somes rs)).
  { induction H as [|v r l rs Hv _ IH]; [reflexivity|]. cbn [map elements fold_right somes]. rewrite Hv. fold (elements (map ser l)). rewrite IH. destruct r; reflexivity. }
  cbn [serialize]. rewrite E. repeat split; reflexivity.
Qed.

(** The value under a key is that of the last entry whose value is not null. *)
Definition under (k : str) (m : list (str * lany)) : option lany := option_map snd (find (fun kv => str_eqb (fst kv) k) m).
Lemma str_eqb_same (s : str) : str_eqb s s = true.
Proof. destruct (str_eqb_spec s s); congruence. Qed.
Lemma under_put k v m k' : under k' (put k v m) = if str_eqb k k' then Some v else under k' m.
Proof.
  unfold under. induction m as [|[k0 v0] m IH]; cbn [put find fst].
  - destruct (str_eqb k k'); reflexivity.
  - destruct (str_eqb_spec k k0) as [<-|Hn]; cbn [find fst].
    + destruct (str_eqb k k'); reflexivity.
    + destruct (str_eqb_spec k0 k') as [<-|Hn']; [|exact IH]. destruct (str_eqb_spec k k0); [congruence|reflexivity].
Qed.
Fixpoint last_under (k : str) (l : list (str * option lany)) (cur : option lany) : option lany :=
  match l with
  | [] => cur
  | (k', Some a) :: l => last_under k l (if str_eqb k' k then Some a else cur)
  | (_, None) :: l => last_under k l cur
  end.
Lemma entries_under l k : exists m, entries (map (fun kv : str * option lany => (Some (fst kv), Some (snd kv))) l) = Some m /\ under k m = last_under k l None.
Proof.
  unfold entries. change (@None lany) with (under k []). generalize (@nil (str * lany)).
  induction l as [|[k0 [a|]] l IH]; intros m; cbn [map fold_left fst snd last_under]; [exists m; auto| |apply IH].
  rewrite <- under_put. apply IH.
Qed.
Theorem C88_structs : forall l rs, Forall2 (fun (f : str * sval) r => fst f = fst r /\ ser (snd f) = Some (snd r)) l rs ->
  exists m, ser (SStruct l) = Some (Some (LMap m)) /\ (forall n, ser (SStructVariant n l) = Some (Some (LMap [(n, LMap m)]))) /\
  ser (SMap (map (fun f => (SStr (fst f), snd f)) l)) = Some (Some (LMap m)) /\ forall k, under k m = last_under k rs None.
Proof.
  intros l rs H.
  assert (E : map (fun kv => (Some (fst kv), ser (snd kv))) l = map (fun kv : str * option lany => (Some (fst kv), Some (snd kv))) rs).
  { induction H as [|f r l rs [H1 H2] _ IH]; [reflexivity|]. cbn [map]. rewrite H1, H2, IH. reflexivity. }
  destruct (entries_under rs []) as (m & Hm & _). exists m. cbn [serialize]. rewrite map_map. cbn [fst snd serialize key_text].
  rewrite E, Hm. cbn [option_map]. repeat match goal with |- _ /\ _ => split end; try reflexivity.
  intros k. destruct (entries_under rs k) as (m' & Hm' & Hu). rewrite Hm in Hm'. injection Hm' as <-. exact Hu.
Qed.

(** *** Every AnyValue can be written and is kept as it is *)
Fixpoint embed (a : lany) : sval :=
  match a with
  | LInt z => SInt z | LDouble f => SFloat f | LString s => SStr s | LBool b => SBool b | LBytes b => SBytes b
  | LList l => SSeq (map embed l)
  | LMap l => SMap (map (fun kv => (SStr (fst kv), embed (snd kv))) l)
  end.
Fixpoint regular (a : lany) : Prop :=
  match a with
  | LInt z => - 2 ^ 63 <= z < 2 ^ 63
  | LList l => fold_right (fun x p => regular x /\ p) True l
  | LMap l => NoDup (map fst l) /\ fold_right (fun kv p => regular (snd kv) /\ p) True l
  | _ => True
  end.
Lemma put_new k v m : ~ In k (map fst m) -> put k v m = m ++ [(k, v)].
Proof.
  induction m as [|[k0 v0] m IH]; intros H; [reflexivity|]. cbn [put app]. destruct (str_eqb_spec k k0) as [->|_]; [destruct H; left; reflexivity|].
  f_equal. apply IH. intros Hi. apply H. right. exact Hi.
Qed.
Lemma entries_distinct l : NoDup (map fst l) -> entries (map (fun kv : str * lany => (Some (fst kv), Some (Some (snd kv)))) l) = Some l.
Proof.
  intros Hn. unfold entries. set (f := fun acc kv => _).
  enough (G : forall l m, NoDup (map fst (m ++ l)) -> fold_left f (map (fun kv : str * lany => (Some (fst kv), Some (Some (snd kv)))) l) (Some m) = Some (m ++ l)) by apply (G l []), Hn.
  clear. induction l as [|[k v] l IH]; intros m Hn; cbn [map fold_left]; [rewrite app_nil_r; reflexivity|].
  unfold f at 2. cbn [fst snd]. rewrite put_new.
  - rewrite IH; [rewrite <- app_assoc; reflexivity|]. rewrite <- app_assoc. exact Hn.
  - rewrite map_app in Hn. cbn [map fst] in Hn. apply NoDup_remove_2 in Hn. intros Hi. apply Hn. apply in_or_app. left. exact Hi.
Qed.
Theorem C88_any_value : forall a, regular a -> ser (embed a) = Some (Some a).
Proof.
  fix IH 1. intros a Ha. destruct a as [z|f|s|b|b|l|l]; try reflexivity.
  - cbn [embed serialize]. unfold int_value. cbn [regular] in Ha. destruct (Z.leb_spec (- 2 ^ 63) z); [|lia]. destruct (Z.ltb_spec z (2 ^ 63)); [reflexivity|lia].
  - cbn [embed serialize regular] in *. rewrite map_map.
    assert (E : elements (map (fun x => ser (embed x)) l) = Some l); [|rewrite E; reflexivity].
    revert l Ha. fix IL 1. intros [|x l] Ha; [reflexivity|]. cbn [fold_right map elements] in *. rewrite (IH x) by apply Ha.
    pose proof (IL l (proj2 Ha)) as E. unfold elements in E. rewrite E. reflexivity.
  - cbn [embed serialize regular] in *. rewrite map_map. cbn [fst snd serialize key_text].
    assert (E : map (fun x : str * lany => (Some (fst x), ser (embed (snd x)))) l = map (fun kv => (Some (fst kv), Some (Some (snd kv)))) l).
    { destruct Ha as [_ Ha]. revert l Ha. fix IL 1. intros [|x l] Ha; [reflexivity|]. cbn [map fold_right] in *. rewrite (IH (snd x)) by apply Ha. f_equal. exact (IL l (proj2 Ha)). }
    rewrite E, entries_distinct by apply Ha. reflexivity.
Qed.

(** The key of a map that is not text is its Debug form: an integer key 7 becomes
    Some(Int(7)), and a null key becomes None. *)
Theorem C135_integer_keys_refuted :
  ser (SMap [(SInt 7, SBool true)]) = Some (Some (LMap [(of_string "Some(Int(7))", LBool true)])) /\
  ser (SMap [(SUnit, SBool true)]) = Some (Some (LMap [(of_string "None", LBool true)])).
Proof. split; reflexivity. Qed.

(** Nulls inside a sequence are removed, so positions shift; a unit struct is not null. *)
Theorem C135_positions_refuted :
  ser (STuple [SNone; SInt 1]) = ser (STuple [SInt 1; SNone]) /\ ser (SUnitStruct (of_string "Marker")) = Some (Some (LString (of_string "Marker"))).
Proof. split; reflexivity. Qed.
End serde.
Print Assumptions C88_broken. Print Assumptions C88_leaves. Print Assumptions C88_handed_over. Print Assumptions C88_null. Print Assumptions C88_sequences. Print Assumptions C88_structs.
Print Assumptions C88_any_value. Print Assumptions C135_integer_keys_refuted. Print Assumptions C135_positions_refuted.

(** ** The bridges *)
(** The level's severity number is the first of its range in the logs data model. *)
Definition first_of_range (l : level) (n : N) : Prop :=
  match l with LvTrace => n = 1 | LvDebug => n = 5 | LvInfo => n = 9 | LvWarn => n = 13 | LvError => n = 17 end%N.
Definition text_of_level (l : level) : string :=
  match l with LvTrace => "TRACE" | LvDebug => "DEBUG" | LvInfo => "INFO" | LvWarn => "WARN" | LvError => "ERROR" end.

(** The pairs whose value [conv] keeps, in order. *)
Inductive kept {V} (conv : V -> option lany) : list (str * V) -> list lattr -> Prop :=
| kept_nil : kept conv [] []
| kept_some k v a l l' : conv v = Some a -> kept conv l l' -> kept conv ((k, v) :: l) ((k, a) :: l')
| kept_none k v l l' : conv v = None -> kept conv l l' -> kept conv ((k, v) :: l) l'.

Theorem C88_log_bridge : forall U V checked enabled now (cx : context span_context U) procs (conv : V -> option lany) lv args target kvs,
  cx_suppress cx = false -> (checked = true -> In true enabled) -> (forall p r, In p procs -> p r = r) ->
  exists r attrs, bridge checked enabled now cx procs (log_ops conv lv args target kvs) = repeat r (List.length procs) /\
  (exists n, lr_sev r = Some n /\ first_of_range lv n) /\ lr_sevtext r = Some (of_string (text_of_level lv)) /\
  lr_body r = Some (LString args) /\ lr_target r = Some target /\ lr_event r = None /\ lr_time r = None /\ lr_observed r = Some now /\
  attributes r = attrs /\ kept conv kvs attrs /\
  lr_trace r = option_map (fun sc => mk_tctx (sc_trace sc) (sc_span sc) (Some (sc_flags sc))) (cx_span cx).
Proof.
  intros U V checked enabled now cx procs conv lv args target kvs Hs Hc Hp. unfold bridge.
  assert (E : checked && negb (event_enabled cx enabled) = false).
  { destruct checked; [|reflexivity]. rewrite (proj2 (C39_event_enabled _ cx enabled)); [reflexivity|auto]. }
  rewrite E. set (ops := log_ops conv lv args target kvs).
  destruct (C39_emit _ _ _ now cx procs (fold_left rec_apply ops rec_new) Hs) as (r & He & _ & _ & Hr).
  pose proof (C41_record _ _ ops) as H. cbv zeta in H. destruct H as (Ha & _ & H1 & H2 & H3 & H4 & H5 & H6 & H7 & H8).
  destruct He as (G1 & G2 & G3 & G4 & G5 & G6 & G7 & G8 & G9).
  rewrite H5 in G1. rewrite H4 in G2. rewrite H1 in G3. rewrite H2 in G4. rewrite H3 in G5. rewrite H6 in G6. rewrite H7 in G7. rewrite H8 in G8. cbn in G1, G2, G3, G4, G5, G6, G7, G8.
  exists r, (attributes r). split; [apply Hr, Hp|]. rewrite G7, G6, G8, G4, G3, G5, G2, G1.
  repeat match goal with |- _ /\ _ => split end; try reflexivity.
  - eexists. split; [reflexivity|]. destruct lv; reflexivity.
  - unfold attributes in *. rewrite G9, Ha. cbn [ops log_ops flat_map added app]. rewrite !app_nil_r. unfold log_attributes. clear.
    induction kvs as [|[k v] kvs IH]; [constructor|]. cbn [flat_map fst snd]. destruct (conv v) eqn:E; cbn [app]; constructor; assumption.
Qed.
Print Assumptions C88_log_bridge.

(** In a tracing event: the text of the last message field is the body, every other
    field one attribute, in order. *)
Definition is_message (f : str * fvalue) : bool :=
  str_eqb (fst f) (of_string "message") && match snd f with FDebug _ | FStr _ => true | _ => false end.
Inductive last_message : list (str * fvalue) -> option str -> Prop :=
| lm_none l : existsb is_message l = false -> last_message l None
| lm_last l1 k f t l2 : k = of_string "message" -> (f = FDebug t \/ f = FStr t) -> existsb is_message l2 = false -> last_message (l1 ++ (k, f) :: l2) (Some t).
Definition stands_for (f : str * fvalue) (a : lattr) : Prop :=
  match snd f with
  | FDebug t | FStr t => a = (fst f, LString t)
  | FError t => a = (of_string "exception.message", LString t)
  | FBytes b => a = (fst f, LBytes b)
  | FBool b => a = (fst f, LBool b)
  | FFloat x => a = (fst f, LDouble x)
  | FInt z => fst a = fst f /\ number_in (snd a) = Some z
  end.
Definition field_ok (f : str * fvalue) : Prop := match snd f with FInt z => - 2 ^ 127 <= z < 2 ^ 128 | _ => True end.

Lemma field_added f : field_ok f -> Forall2 stands_for (if is_message f then [] else [f]) (added (field_op f)).
Proof.
  destruct f as [k v]. unfold field_ok, is_message, field_op, MESSAGE. cbn [fst snd]. intros Hk.
  destruct v; cbn [andb added]; rewrite ?andb_false_r, ?andb_true_r; try (destruct (str_eqb k (of_string "message")); cbn [added]);
    repeat constructor; cbn [stands_for fst snd]; try reflexivity; exact (proj1 (C88_integers _ Hk)).
Qed.
Lemma body_last fields : forall cur,
  last_set (fun o => match o with SetBody s => Some s | _ => None end) (map field_op fields) (option_map LString cur) =
  option_map LString (fold_left (fun cur f => if is_message f then match snd f with FDebug t | FStr t => Some t | _ => cur end else cur) fields cur).
Proof.
  unfold last_set. induction fields as [|[k v] l IH]; intros cur; [reflexivity|]. cbn [map fold_left]. rewrite <- IH. f_equal.
  unfold field_op, is_message, MESSAGE. cbn [fst snd]. destruct v; cbn [andb]; rewrite ?andb_false_r, ?andb_true_r; try reflexivity; destruct (str_eqb k (of_string "message")); reflexivity.
Qed.
Lemma last_message_fold fields :
  last_message fields (fold_left (fun cur f => if is_message f then match snd f with FDebug t | FStr t => Some t | _ => cur end else cur) fields None).
Proof.
  induction fields as [|f l IH] using rev_ind; [constructor; reflexivity|]. rewrite fold_left_app. cbn [fold_left].
  destruct (is_message f) eqn:E.
  - destruct f as [k v]. unfold is_message in E. cbn [fst snd] in *. apply andb_prop in E. destruct E as [E1 E2].
    destruct (str_eqb_spec k (of_string "message")) as [->|]; [|discriminate]. destruct v; try discriminate; (apply lm_last; [reflexivity|auto|reflexivity]).
  - inversion IH as [l' Hn Hl Hc|l1 k v t l2 Hk Hv Hn Hl Hc]; subst.
    + rewrite <- Hc in *. constructor. rewrite existsb_app, Hn. cbn [existsb]. rewrite E. reflexivity.
    + rewrite <- app_assoc. cbn [app]. constructor; auto. rewrite existsb_app, Hn. cbn [existsb]. rewrite E. reflexivity.
Qed.

Theorem C88_tracing_bridge : forall U checked enabled now (cx : context span_context U) procs lv name target fields,
  cx_suppress cx = false -> (checked = true -> In true enabled) -> (forall p r, In p procs -> p r = r) -> Forall field_ok fields ->
  exists r m, bridge checked enabled now cx procs (tracing_ops lv name target fields) = repeat r (List.length procs) /\
  (exists n, lr_sev r = Some n /\ first_of_range lv n) /\ lr_sevtext r = Some (of_string (text_of_level lv)) /\
  lr_body r = option_map LString m /\ last_message fields m /\
  lr_target r = Some target /\ lr_event r = Some name /\ lr_time r = None /\ lr_observed r = Some now /\
  Forall2 stands_for (filter (fun f => negb (is_message f)) fields) (attributes r) /\
  lr_trace r = option_map (fun sc => mk_tctx (sc_trace sc) (sc_span sc) (Some (sc_flags sc))) (cx_span cx).
Proof.
  intros U checked enabled now cx procs lv name target fields Hs Hc Hp Hf. unfold bridge.
  assert (E : checked && negb (event_enabled cx enabled) = false).
  { destruct checked; [|reflexivity]. rewrite (proj2 (C39_event_enabled _ cx enabled)); [reflexivity|auto]. }
  rewrite E. set (ops := tracing_ops lv name target fields).
  destruct (C39_emit _ _ _ now cx procs (fold_left rec_apply ops rec_new) Hs) as (r & He & _ & _ & Hr).
  pose proof (C41_record _ _ ops) as H. cbv zeta in H. destruct H as (Ha & _ & H1 & H2 & H3 & H4 & H5 & H6 & H7 & H8).
  destruct He as (G1 & G2 & G3 & G4 & G5 & G6 & G7 & G8 & G9).
  rewrite H5 in G1. rewrite H4 in G2. rewrite H1 in G3. rewrite H2 in G4. rewrite H3 in G5. rewrite H6 in G6. rewrite H7 in G7. rewrite H8 in G8.
  assert (Hk : forall X (f : rec_op lattr lany -> option X) cur, (forall fd, f (field_op fd) = None) -> last_set f (map field_op fields) cur = cur).
  { intros X f cur Hn. unfold last_set. revert cur. clear -Hn. induction fields as [|fd l IH]; intros cur; [reflexivity|]. cbn [map fold_left]. rewrite Hn. apply IH. }
  assert (Hop : forall fd, match field_op fd with SetBody _ | AddAttr _ => True | _ => False end).
  { intros [k v]. unfold field_op. cbn [fst snd]. destruct v; try exact I; destruct (str_eqb k MESSAGE); exact I. }
  unfold ops, tracing_ops, last_set in G1, G2, G3, G4, G5, G6, G7, G8. rewrite !fold_left_app in G1, G2, G3, G4, G5, G6, G7, G8. cbn [fold_left] in G1, G2, G3, G4, G5, G6, G7, G8.
  unfold last_set in Hk. rewrite Hk in G1, G2, G3, G4, G5, G6, G7 by (intros fd; specialize (Hop fd); destruct (field_op fd); tauto || reflexivity).
  pose proof (body_last fields None) as Hb. unfold last_set in Hb. cbn [option_map] in Hb. rewrite Hb in G8.
  exists r. eexists. split; [apply Hr, Hp|]. rewrite G7, G6, G8, G4, G3, G5, G2, G1.
  repeat match goal with |- _ /\ _ => split end; try reflexivity.
  - eexists. split; [reflexivity|]. destruct lv; reflexivity.
  - apply last_message_fold.
  - unfold attributes in *. rewrite G9, Ha. unfold ops, tracing_ops. cbn [flat_map added app]. clear -Hf.
    induction Hf as [|f l H _ IH]; [constructor|]. cbn [map flat_map filter]. pose proof (field_added f H) as Hx. destruct (is_message f); cbn [negb].
    + inversion Hx. exact IH.
    + change (f :: filter (fun f => negb (is_message f)) l) with ([f] ++ filter (fun f => negb (is_message f)) l). apply Forall2_app; assumption.
Qed.
Print Assumptions C88_tracing_bridge.

(** Nothing is emitted when the context suppresses telemetry, nor, in a build that asks,
    when no processor wants the record. *)
Theorem C88_disabled : forall U checked enabled now (cx : context span_context U) procs ops,
  cx_suppress cx = true \/ (checked = true /\ ~ In true enabled) -> bridge checked enabled now cx procs ops = [].
Proof.
  intros U checked enabled now cx procs ops [H|[H1 H2]]; unfold bridge.
  - rewrite C39_suppressed by exact H. destruct (checked && _); reflexivity.
  - subst checked. destruct (event_enabled cx enabled) eqn:E; [apply C39_event_enabled in E; tauto|reflexivity].
Qed.
Print Assumptions C88_disabled.

(** The name of an error field is lost: errors of different fields share one key, and
    keep both entries. *)
Theorem C135_error_fields_refuted : forall a b ta tb,
  added (field_op (a, FError ta)) ++ added (field_op (b, FError tb)) =
  [(of_string "exception.message", LString ta); (of_string "exception.message", LString tb)].
Proof. reflexivity. Qed.
Print Assumptions C135_error_fields_refuted.

Example C88_nonvacuous :
  let v := SStruct [(of_string "id", SInt (2 ^ 64 - 1)); (of_string "tags", SSeq [SStr (of_string "x"); SNone]); (of_string "gone", SUnit)] in
  serde_value (fun _ => []) v = Some (LMap [(of_string "id", LString (of_string "18446744073709551615")); (of_string "tags", LList [LString (of_string "x")])]) /\
  serde_value (fun _ => []) (SSeq [SInt 1; SFail]) = None /\
  regular (LMap [(of_string "a", LList [LInt (-5)]); (of_string "b", LBool true)]) /\
  (exists r, bridge true [true] 9 (mk_context (V := nat) (Some (mk_sc 1 2 1 false None)) None false) [fun r => r]
     (tracing_ops LvWarn (of_string "event") (of_string "crate") [(of_string "message", FDebug (of_string "hi")); (of_string "n", FInt 3)]) = [r] /\
   lr_body r = Some (LString (of_string "hi")) /\ attributes r = [(of_string "n", LInt 3)] /\ lr_trace r = Some (mk_tctx 1 2 (Some 1%N))).
Proof.
  intros v. repeat match goal with |- _ /\ _ => split end; try reflexivity.
  - cbn [regular map fst fold_right snd]. repeat split; try lia. constructor; [intros [E|[]]; vm_compute in E; discriminate|]. constructor; [intros []|constructor].
  - eexists. split; [reflexivity|]. repeat split; reflexivity.
Qed.
