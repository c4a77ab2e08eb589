(** C60, C61, C62, C79. *)
From Coq Require Import String List NArith ZArith Bool Permutation Lia.
From Verif Require Import Str StrProofs F64 F64Proofs TraceModel TraceSpec TraceProofs TraceProps SpanModel LogModel AttrModel AttrProofs KvModel KvProps OtlpModel.
Import ListNotations.
Local Open Scope Z_scope.

(** * Grouping, for any keys *)
(** [l] is [m] with some elements left out. *)
Inductive sub {A} : list A -> list A -> Prop :=
| sub_nil : sub [] []
| sub_skip : forall x l m, sub l m -> sub l (x :: m)
| sub_take : forall x l m, sub l m -> sub (x :: l) (x :: m).
Lemma sub_app : forall A (a b c d : list A), sub a b -> sub c d -> sub (a ++ c) (b ++ d).
Proof. intros A a b c d H. induction H; intros Hc; cbn [app]; [exact Hc|apply sub_skip; auto|apply sub_take; auto]. Qed.
Lemma sub_refl : forall A (l : list A), sub l l.
Proof. induction l; [constructor|apply sub_take; assumption]. Qed.
Lemma sub_snoc : forall A (l m : list A) x, sub l m -> sub l (m ++ [x]).
Proof. intros A l m x H. rewrite <- (app_nil_r l). apply sub_app; [exact H|]. constructor. constructor. Qed.
Lemma sub_nil_l : forall A (m : list A), sub [] m.
Proof. induction m; constructor; auto. Qed.

Section grouping.
Context {K T : Type} (same : K -> K -> bool) (key : T -> K).
Lemma group_snoc : forall l x, group same key (l ++ [x]) = push same (key x) x (group same key l).
Proof. intros l x. unfold group. rewrite fold_left_app. reflexivity. Qed.
Lemma push_perm : forall k x (m : list (K * list T)), Permutation (concat (map snd (push same k x m))) (x :: concat (map snd m)).
Proof.
  intros k x m. induction m as [|[k' l] m IH]; cbn [push map concat snd]; [reflexivity|]. destruct (same k k'); cbn [map concat snd].
  - rewrite <- app_assoc. symmetry. apply Permutation_middle.
  - rewrite IH. symmetry. apply Permutation_middle.
Qed.
Lemma group_perm : forall l, Permutation (concat (map snd (group same key l))) l.
Proof.
  intros l. induction l as [|x l IH] using rev_ind; [reflexivity|]. rewrite group_snoc, push_perm. rewrite <- Permutation_cons_append. constructor. exact IH.
Qed.
(** What is known of one group: a non-empty part of the batch in batch order, under the
    key of its first element, which the map took to be the key of the others. *)
Definition group_ok (l : list T) (g : K * list T) : Prop :=
  exists x rest, snd g = x :: rest /\ key x = fst g /\ sub (snd g) l /\ Forall (fun y => same (key y) (fst g) = true) rest.
Lemma push_ok : forall l x m, Forall (group_ok l) m -> Forall (group_ok (l ++ [x])) (push same (key x) x m).
Proof.
  intros l x m H.
  assert (Hw : forall g, group_ok l g -> group_ok (l ++ [x]) g).
  { intros g (y & r & E1 & E2 & E3 & E4). exists y, r. repeat split; try assumption. apply sub_snoc. exact E3. }
  induction H as [|[k' g] m Hg Hm IH]; cbn [push].
  - constructor; [|constructor]. exists x, []. cbn. repeat split; [|constructor]. rewrite <- (app_nil_l [x]) at 1. apply sub_app; [apply sub_nil_l|apply sub_refl].
  - destruct (same (key x) k') eqn:E.
    + constructor; [|eapply Forall_impl; [exact Hw|exact Hm]].
      destruct Hg as (y & r & E1 & E2 & E3 & E4). cbn [fst snd] in *. subst g. exists y, (r ++ [x]). cbn [fst snd].
      repeat split; [exact E2| |apply Forall_app; split; [exact E4|constructor; [exact E|constructor]]].
      change (sub ((y :: r) ++ [x]) (l ++ [x])). apply sub_app; [exact E3|apply sub_refl].
    + constructor; [apply Hw; exact Hg|exact IH].
Qed.
Lemma group_all_ok : forall l, Forall (group_ok l) (group same key l).
Proof. intros l. induction l as [|x l IH] using rev_ind; [constructor|]. rewrite group_snoc. apply push_ok. exact IH. Qed.

(** On keys where [same] is an equivalence there is one group per key class, holding all
    its elements. *)
Definition apart (m : list (K * list T)) : Prop := ForallOrdPairs (fun g h => same (fst h) (fst g) = false) m.
Lemma push_lawful : forall (P : K -> Prop),
  (forall a, P a -> same a a = true) -> (forall a b, P a -> P b -> same a b = true -> same b a = true) ->
  (forall a b c, P a -> P b -> P c -> same a b = true -> same b c = true -> same a c = true) ->
  forall l x m, P (key x) -> Forall (fun g => P (fst g) /\ snd g = filter (fun y => same (key y) (fst g)) l) m ->
  Forall (fun y => P (key y)) l ->
  apart m -> (forall y, In y l -> exists g, In g m /\ same (key y) (fst g) = true) ->
  Forall (fun g => P (fst g) /\ snd g = filter (fun y => same (key y) (fst g)) (l ++ [x])) (push same (key x) x m) /\
  apart (push same (key x) x m) /\ (forall y, In y (l ++ [x]) -> exists g, In g (push same (key x) x m) /\ same (key y) (fst g) = true).
Proof.
  intros P Hr Hs Ht l x m Px Hm Hl Ha Hall.
  assert (Hf : forall k, filter (fun y => same (key y) k) (l ++ [x]) = filter (fun y => same (key y) k) l ++ (if same (key x) k then [x] else [])) by (intros k; rewrite filter_app; reflexivity).
  assert (Hcase : (exists m1 k g m2, m = m1 ++ (k, g) :: m2 /\ Forall (fun h => same (key x) (fst h) = false) m1 /\ same (key x) k = true /\ push same (key x) x m = m1 ++ (k, g ++ [x]) :: m2) \/
    (Forall (fun h => same (key x) (fst h) = false) m /\ push same (key x) x m = m ++ [(key x, [x])])).
  { clear. induction m as [|[k g] m IH]; [right; split; [constructor|reflexivity]|]. cbn [push]. destruct (same (key x) k) eqn:E.
    - left. exists [], k, g, m. repeat split; [constructor|exact E].
    - destruct IH as [(m1 & k1 & g1 & m2 & -> & H1 & H2 & H3)|[H1 H2]].
      + left. exists ((k, g) :: m1), k1, g1, m2. rewrite H3. repeat split; [constructor; [exact E|exact H1]|exact H2].
      + right. rewrite H2. split; [constructor; [exact E|exact H1]|reflexivity]. }
  destruct Hcase as [(m1 & k & g & m2 & -> & H1 & H2 & ->)|[H1 ->]].
  - rewrite Forall_app in Hm. destruct Hm as [Hm1 Hm2]. inversion Hm2 as [|p q [Pk Hg] Hm2']; subst p q. cbn [fst snd] in *.
    assert (H12 : Forall (fun h => same (key x) (fst h) = false) m2).
    { apply Forall_forall. intros h Hh. destruct (same (key x) (fst h)) eqn:E; [|reflexivity]. exfalso.
      assert (Hk : same (fst h) k = false).
      { clear - Ha Hh. unfold apart in Ha. induction m1 as [|z m1 IH]; cbn [app] in Ha; inversion Ha as [|p q Hp Hq]; subst; [rewrite Forall_forall in Hp; exact (Hp h Hh)|auto]. }
      assert (Ph : P (fst h)) by (rewrite Forall_forall in Hm2'; apply (Hm2' h Hh)).
      rewrite (Ht (fst h) (key x) k) in Hk; [discriminate|assumption..| |assumption]. apply Hs; assumption. }
    split; [|split].
    + apply Forall_app. split; [|constructor; [cbn [fst snd]; split; [exact Pk|rewrite Hf, H2, Hg; reflexivity]|]].
      * apply Forall_forall. intros h Hh. rewrite Forall_forall in Hm1, H1. destruct (Hm1 h Hh) as [Ph E]. split; [exact Ph|]. rewrite Hf, (H1 h Hh), app_nil_r. exact E.
      * apply Forall_forall. intros h Hh. rewrite Forall_forall in Hm2', H12. destruct (Hm2' h Hh) as [Ph E]. split; [exact Ph|]. rewrite Hf, (H12 h Hh), app_nil_r. exact E.
    + clear - Ha. unfold apart in *. induction m1 as [|z m1 IH]; cbn [app] in *; inversion Ha as [|p q Hp Hq]; subst; constructor; auto.
      rewrite Forall_app in *. destruct Hp as [Hp1 Hp2]. split; [exact Hp1|]. inversion Hp2; subst. constructor; assumption.
    + intros y Hy. apply in_app_or in Hy. destruct Hy as [Hy|[<- |[]]].
      * destruct (Hall y Hy) as (h & Hin & E). apply in_app_or in Hin. destruct Hin as [Hin|[<- |Hin]].
        -- exists h. split; [apply in_or_app; auto|exact E].
        -- exists (k, g ++ [x]). split; [apply in_or_app; right; left; reflexivity|exact E].
        -- exists h. split; [apply in_or_app; right; right; exact Hin|exact E].
      * exists (k, g ++ [x]). split; [apply in_or_app; right; left; reflexivity|exact H2].
  - split; [|split].
    + apply Forall_app. split; [|constructor; [|constructor]].
      * apply Forall_forall. intros h Hh. rewrite Forall_forall in Hm, H1. destruct (Hm h Hh) as [Ph E]. split; [exact Ph|]. rewrite Hf, (H1 h Hh), app_nil_r. exact E.
      * cbn [fst snd]. split; [exact Px|]. rewrite Hf, (Hr _ Px).
        replace (filter _ l) with (@nil T); [reflexivity|]. symmetry.
        assert (Hno : forall y, In y l -> same (key y) (key x) = false).
        { intros y Hy. destruct (same (key y) (key x)) eqn:E; [|reflexivity]. exfalso. destruct (Hall y Hy) as (h & Hin & Eh).
          rewrite Forall_forall in H1, Hm, Hl. destruct (Hm h Hin) as [Ph _]. specialize (Hl y Hy). specialize (H1 h Hin).
          rewrite (Ht (key x) (key y) (fst h)) in H1; [discriminate|assumption..| |assumption]. apply Hs; assumption. }
        clear - Hno. induction l as [|z l IH]; [reflexivity|]. cbn [filter]. rewrite Hno by (left; reflexivity). apply IH. intros y Hy. apply Hno. right. exact Hy.
    + clear - Ha H1. unfold apart in *. induction m as [|z m IH]; cbn [app]; [repeat constructor|]. inversion Ha as [|p q Hp Hq]; subst. inversion H1 as [|p q Hp' Hq']; subst.
      constructor; [apply Forall_app; split; [exact Hp|constructor; [exact Hp'|constructor]]|auto].
    + intros y Hy. apply in_app_or in Hy. destruct Hy as [Hy|[<- |[]]].
      * destruct (Hall y Hy) as (h & Hin & E). exists h. split; [apply in_or_app; auto|exact E].
      * exists (key x, [x]). split; [apply in_or_app; right; left; reflexivity|apply Hr; exact Px].
Qed.
Lemma group_lawful : forall (P : K -> Prop),
  (forall a, P a -> same a a = true) -> (forall a b, P a -> P b -> same a b = true -> same b a = true) ->
  (forall a b c, P a -> P b -> P c -> same a b = true -> same b c = true -> same a c = true) ->
  forall l, Forall (fun y => P (key y)) l ->
  Forall (fun g => P (fst g) /\ snd g = filter (fun y => same (key y) (fst g)) l) (group same key l) /\
  apart (group same key l) /\ (forall y, In y l -> exists g, In g (group same key l) /\ same (key y) (fst g) = true).
Proof.
  intros P Hr Hs Ht l. induction l as [|x l IH] using rev_ind; intros Hl.
  - repeat split; [constructor|constructor|intros y []].
  - apply Forall_app in Hl. destruct Hl as [Hl Hx]. inversion Hx as [|p q Px _]; subst. destruct (IH Hl) as (H1 & H2 & H3). rewrite group_snoc.
    apply (push_lawful P Hr Hs Ht); assumption.
Qed.
End grouping.

(** A hash map in an arbitrary state of its hasher: it finds a key only under an equal
    one, and finds it if the stored key also hashes equally. *)
Definition map_lookup (srt : list attr -> list attr) (same : scope -> scope -> bool) : Prop :=
  (forall a b, same a b = true -> scope_eqb srt a b = true) /\
  (forall a b, scope_eqb srt a b = true -> scope_hash srt a = scope_hash srt b -> same a b = true).
Definition permutes {A} (order : list A -> list A) : Prop := forall l, Permutation (order l) l.

Lemma perm_concat_map : forall A B C (f : A -> list B) (g : B -> C) (l m : list A), Permutation l m -> Permutation (concat (map (fun a => map g (f a)) l)) (map g (concat (map f m))).
Proof.
  intros A B C f g l m H.
  induction H as [|x l m H IH|x y l|l m n H1 IH1 H2 IH2]; cbn [map concat]; rewrite ?map_app; [reflexivity|apply Permutation_app_head; exact IH| |].
  - assert (E : forall l, concat (map (fun a => map g (f a)) l) = map g (concat (map f l))).
    { clear. induction l as [|a l IH]; [reflexivity|]. cbn [map concat]. rewrite map_app, IH. reflexivity. }
    rewrite E, !app_assoc. apply Permutation_app_tail. apply Permutation_app_comm.
  - rewrite IH1. etransitivity; [|exact IH2]. apply Permutation_sym. clear. induction m as [|a m IH]; [reflexivity|]. cbn [map concat]. rewrite map_app. apply Permutation_app_head. exact IH.
Qed.

Section plain.
Context (srt : list attr -> list attr) (Hs : sorter_ok srt).
Lemma sc_refl a : plain_scope a -> scope_eqb srt a a = true.
Proof using Hs. intros P. exact (proj1 (C64_scope_equality srt Hs a a a P P P)). Qed.
Lemma sc_sym a b : plain_scope a -> plain_scope b -> scope_eqb srt a b = true -> scope_eqb srt b a = true.
Proof using Hs. intros P Q. exact (proj1 (proj2 (C64_scope_equality srt Hs a b b P Q Q))). Qed.
Lemma sc_trans a b c : plain_scope a -> plain_scope b -> plain_scope c -> scope_eqb srt a b = true -> scope_eqb srt b c = true -> scope_eqb srt a c = true.
Proof using Hs. intros P Q R. exact (proj1 (proj2 (proj2 (C64_scope_equality srt Hs a b c P Q R)))). Qed.
Lemma sc_hash a b : plain_scope a -> plain_scope b -> scope_eqb srt a b = true -> scope_hash srt a = scope_hash srt b.
Proof using Hs. intros P Q. exact (proj1 (proj2 (proj2 (proj2 (C64_scope_equality srt Hs a b b P Q Q))))). Qed.
End plain.

(** * C60 *)
(** Every span of the batch is in the request exactly once, whatever the scopes contain
    and whatever order the map yields its entries in. *)
Theorem C60_every_span_once : forall same order spans r, permutes order ->
  Permutation (concat (map g_items (r_groups (spans_msg same order spans r)))) (map span_msg spans).
Proof.
  intros same order spans r Ho. unfold spans_msg. cbn [r_groups]. rewrite map_map. cbn [g_items].
  rewrite (perm_concat_map _ _ _ snd span_msg _ (group same d_scope spans) (Ho _)). apply Permutation_map. apply group_perm.
Qed.
Print Assumptions C60_every_span_once.

(** The request carries the resource; each group holds spans of the batch in batch order,
    all with a scope equal to the one whose name, version and attributes the group
    names, which is the scope of its first span. *)
Theorem C60_groups : forall srt same order spans r, sorter_ok srt -> map_lookup srt same -> permutes order ->
  let m := spans_msg same order spans r in
  r_rattrs m = attrs_msg (re_attrs r) /\ r_rurl m = or_empty (re_url r) /\
  forall g, In g (r_groups m) -> exists first rest,
    g_items g = map span_msg (first :: rest) /\ sub (first :: rest) spans /\
    g_scope g = mk_pscope (sc_name (d_scope first)) (or_empty (sc_version (d_scope first))) (attrs_msg (sc_attrs (d_scope first))) /\
    Forall (fun s => scope_eqb srt (d_scope s) (d_scope first) = true) rest.
Proof.
  intros srt same order spans r Hs [Hl _] Ho m. split; [reflexivity|]. split; [reflexivity|]. intros g Hg.
  unfold m, spans_msg in Hg. cbn [r_groups] in Hg. apply in_map_iff in Hg. destruct Hg as ([k l] & <- & Hin).
  apply (Permutation_in _ (Ho _)) in Hin. pose proof (group_all_ok same d_scope spans) as Hok. rewrite Forall_forall in Hok.
  destruct (Hok _ Hin) as (x & rest & E1 & E2 & E3 & E4). cbn [fst snd] in *. subst l k. exists x, rest. cbn [g_items g_scope]. repeat split; [exact E3|].
  eapply Forall_impl; [|exact E4]. intros s. apply Hl.
Qed.
Print Assumptions C60_groups.

(** When no scope has NaN or minus zero among its attributes, there is one group per
    scope and it holds exactly the spans of that scope. *)
Theorem C60_one_group_per_scope : forall srt same order spans r, sorter_ok srt -> map_lookup srt same -> permutes order ->
  Forall (fun s => plain_scope (d_scope s)) spans ->
  exists keys, NoDup keys /\ ForallOrdPairs (fun a b => scope_eqb srt a b = false) keys /\
    r_groups (spans_msg same order spans r) =
      map (fun k => mk_scoped (scope_msg k None) (or_empty (re_url r)) (map span_msg (filter (fun s => scope_eqb srt (d_scope s) k) spans))) keys /\
    (forall s, In s spans -> exists k, In k keys /\ scope_eqb srt (d_scope s) k = true).
Proof.
  intros srt same order spans r Hs [Hl1 Hl2] Ho Hp.
  assert (He : forall a b, plain_scope a -> plain_scope b -> same a b = scope_eqb srt a b).
  { intros a b Pa Pb. destruct (same a b) eqn:E; [symmetry; apply Hl1; exact E|]. destruct (scope_eqb srt a b) eqn:E2; [|reflexivity]. rewrite Hl2 in E; [discriminate|exact E2|].
    apply sc_hash; assumption. }
  destruct (group_lawful same d_scope plain_scope) with (l := spans) as (H1 & H2 & H3); [| | |exact Hp|].
  { intros a Pa. rewrite He by assumption. apply sc_refl; assumption. }
  { intros a b Pa Pb. rewrite !He by assumption. apply sc_sym; assumption. }
  { intros a b c Pa Pb Pc. rewrite !He by assumption. apply sc_trans; assumption. }
  set (gs := group same d_scope spans) in *.
  assert (Ho1 : Forall (fun g => plain_scope (fst g) /\ snd g = filter (fun y => same (d_scope y) (fst g)) spans) (order gs)) by (eapply Permutation_Forall; [symmetry; apply Ho|exact H1]).
  assert (Hsym : forall g h, In g gs -> In h gs -> same (fst h) (fst g) = same (fst g) (fst h)).
  { intros g h Hg Hh. rewrite Forall_forall in H1. destruct (H1 g Hg) as [Pg _], (H1 h Hh) as [Ph _]. rewrite !He by assumption.
    pose proof (C64_scope_partial_equivalence srt (fst g) (fst h) (fst h)) as [Q1 _]. pose proof (C64_scope_partial_equivalence srt (fst h) (fst g) (fst g)) as [Q2 _].
    destruct (scope_eqb srt (fst g) (fst h)), (scope_eqb srt (fst h) (fst g)); auto; symmetry; auto. }
  assert (Hap : ForallOrdPairs (fun g h => same (fst g) (fst h) = false) (order gs)).
  { assert (Hperm : forall l m : list (scope * list sdata), Permutation l m -> (forall g h, In g l -> In h l -> same (fst h) (fst g) = same (fst g) (fst h)) ->
      ForallOrdPairs (fun g h => same (fst g) (fst h) = false) l -> ForallOrdPairs (fun g h => same (fst g) (fst h) = false) m).
    { clear. intros l m H. induction H as [|x l m H IH|x y l|l m n Ha IHa Hb IHb]; intros Hsy Hf; [constructor| | |].
      - inversion Hf as [|p q Hp Hq]; subst. constructor; [eapply Permutation_Forall; eassumption|]. apply IH; [|exact Hq]. intros g h Hg Hh. apply Hsy; right; assumption.
      - inversion Hf as [|p q Hp Hq]; subst. inversion Hq as [|p q Hp' Hq']; subst. inversion Hp as [|p q Hxy Hp'']; subst.
        constructor; [constructor; [|exact Hp']|constructor; assumption]. rewrite Hsy; [exact Hxy|left; reflexivity|right; left; reflexivity].
      - apply IHb; [intros g h Hg Hh; apply Hsy; eapply Permutation_in; try (symmetry; exact Ha); assumption|]. apply IHa; assumption. }
    eapply Hperm; [symmetry; apply Ho|exact Hsym|]. unfold apart in H2. clear - H2 Hsym.
    induction H2 as [|g l Hg Hl IH]; [constructor|]. constructor.
    - apply Forall_forall. intros h Hh. rewrite Forall_forall in Hg. rewrite <- Hsym; [apply Hg; exact Hh|left; reflexivity|right; exact Hh].
    - apply IH. intros a b Ha Hb. apply Hsym; right; assumption. }
  exists (map fst (order gs)).
  assert (Hap2 : ForallOrdPairs (fun a b => scope_eqb srt a b = false) (map fst (order gs))).
  { clear - Hap Ho1 He. induction Hap as [|g l Hg Hl IH]; [constructor|]. inversion Ho1 as [|p q [Pg _] Hq]; subst. cbn [map]. constructor; [|apply IH; exact Hq].
    apply Forall_map. rewrite Forall_forall in *. intros h Hh. rewrite <- He; [apply Hg; exact Hh|exact Pg|apply Hq; exact Hh]. }
  split; [|split; [exact Hap2|split]].
  - assert (Hrefl : Forall (fun k => scope_eqb srt k k = true) (map fst (order gs))).
    { apply Forall_map. eapply Forall_impl; [|exact Ho1]. intros g [Pg _]. apply sc_refl; assumption. }
    clear - Hap2 Hrefl. induction Hap2 as [|k l Hk Hl IH]; constructor.
    + intros Hin. rewrite Forall_forall in Hk. specialize (Hk k Hin). inversion Hrefl; subst. congruence.
    + apply IH. inversion Hrefl; assumption.
  - unfold spans_msg. cbn [r_groups]. fold gs. rewrite map_map. apply map_ext_in. intros g Hg. rewrite Forall_forall in Ho1. destruct (Ho1 g Hg) as [Pg ->]. f_equal. f_equal.
    apply filter_ext_in. intros s Hsn. rewrite Forall_forall in Hp. apply He; [apply Hp; exact Hsn|exact Pg].
  - intros s Hsn. destruct (H3 s Hsn) as (g & Hg & E). exists (fst g). split; [apply in_map; eapply Permutation_in; [symmetry; apply Ho|exact Hg]|]. apply Hl1. exact E.
Qed.
Print Assumptions C60_one_group_per_scope.

Definition ex_data : @span_data attr := mk_data 0%N 4%N [110%N] 5 9 [] 0%N [] 0%N [] 0%N Unset.
Definition ex_sdata (id : N) (sc : scope) : sdata := mk_sdata (mk_sc 1%N id 1%N false None) ex_data sc.
Example C60_nonvacuous :
  let a := mk_scope [97%N] (Some [49%N]) None [([107%N], VI64 3)] in let b := mk_scope [97%N] None None [] in
  map (fun g => (g_scope g, map p_span (g_items g))) (r_groups (spans_msg (scope_eqb isort) (@rev _) [ex_sdata 7 a; ex_sdata 8 b; ex_sdata 9 a] (mk_resource [] None)))
  = [(mk_pscope [97%N] [] [], [span_id_to_bytes 8]); (mk_pscope [97%N] [49%N] [([107%N], PInt 3)], [span_id_to_bytes 7; span_id_to_bytes 9])].
Proof. vm_compute. reflexivity. Qed.

(** * C61 *)
(** Refuted: the version and the attributes of the scope are lost for every record, even
    without a target. *)
Definition ex_log (sc : scope) : lrec * scope := (mk_rec None None None (Some 5) None None None None (ga_new None PREALLOC), sc).
Theorem C117_scope_kept_refuted : ~ (forall order logs r m g, permutes order -> logs_msg order logs r = Some m -> In g (r_groups m) ->
  exists x, In x logs /\ (g_scope g = scope_msg (snd x) (lr_target (fst x)))).
Proof.
  intros H. specialize (H (fun l => l) [ex_log (mk_scope [97%N] (Some [49%N]) None [])] (mk_resource [] None)).
  destruct (logs_msg (fun l => l) _ _) as [m|] eqn:E in H; [|vm_compute in E; discriminate]. vm_compute in E. injection E as E. subst m.
  specialize (H _ _ (fun l => Permutation_refl l) eq_refl (or_introl eq_refl)). destruct H as (x & [<- |[]] & E). vm_compute in E. discriminate.
Qed.
Print Assumptions C117_scope_kept_refuted.

Lemma all_some_map : forall A B (f : A -> option B) l m, all_some (map f l) = Some m -> Forall2 (fun a b => f a = Some b) l m.
Proof.
  intros A B f l. induction l as [|a l IH]; cbn [map all_some]; intros m H; [injection H as <-; constructor|].
  destruct (f a) as [b|] eqn:E; [|discriminate]. destruct (all_some (map f l)) as [m'|]; [|discriminate]. injection H as <-. constructor; auto.
Qed.
Lemma all_some_total : forall A B (f : A -> option B) l, Forall (fun a => exists b, f a = Some b) l -> exists m, all_some (map f l) = Some m.
Proof.
  intros A B f l H. induction H as [|a l [b Hb] Hl [m IH]]; [exists []; reflexivity|]. exists (b :: m). cbn [map all_some]. rewrite Hb, IH. reflexivity.
Qed.
Lemma str_same : forall a b, str_eqb a b = true <-> a = b. Proof. apply str_eqb_eq. Qed.

(** What holds: when every record has its observed timestamp (C39 shows the SDK sets it)
    the conversion succeeds; every record is in the request exactly once; there is one
    group per target-or-scope-name, named so, with exactly the records of that name in
    batch order. *)
Definition group_name (x : lrec * scope) : list N := match lr_target (fst x) with Some t => t | None => sc_name (snd x) end.
Theorem C61_grouping : forall order (logs : list (lrec * scope)) r, permutes order -> Forall (fun x => lr_observed (fst x) <> None) logs ->
  exists m keys, logs_msg order logs r = Some m /\ r_rattrs m = attrs_msg (re_attrs r) /\ r_rurl m = or_empty (re_url r) /\
    NoDup keys /\ (forall x, In x logs -> In (group_name x) keys) /\
    Forall2 (fun k g => g_scope g = mk_pscope k [] [] /\
      Forall2 (fun x p => log_msg (fst x) = Some p) (filter (fun x => str_eqb (group_name x) k) logs) (g_items g)) keys (r_groups m) /\
    Permutation (concat (map (fun k => filter (fun x => str_eqb (group_name x) k) logs) keys)) logs.
Proof.
  change group_name with log_key.
  intros order logs r Ho Hobs. set (gs := group str_eqb log_key logs).
  destruct (group_lawful str_eqb log_key (fun _ => True)) with (l := logs) as (H1 & H2 & H3).
  { intros a _. apply str_eqb_refl. } { intros a b _ _. rewrite !str_same. congruence. } { intros a b c _ _ _. rewrite !str_same. congruence. } { apply Forall_forall. auto. }
  fold gs in H1, H2, H3. pose proof (group_all_ok str_eqb log_key logs) as Hok. pose proof (group_perm str_eqb log_key logs) as Hperm. fold gs in Hok, Hperm.
  assert (Hmsg : forall g, In g gs -> exists p, log_group_msg r g = Some p).
  { intros g Hg. rewrite Forall_forall in Hok, H1. destruct (Hok g Hg) as (x & rest & E & _). destruct (H1 g Hg) as [_ E2]. unfold log_group_msg. rewrite E, <- E.
    destruct (all_some_total _ _ (fun x : lrec * scope => log_msg (fst x)) (snd g)) as [m Hm].
    { apply Forall_forall. intros y Hy. rewrite E2 in Hy. apply filter_In in Hy. destruct Hy as [Hy _]. rewrite Forall_forall in Hobs. specialize (Hobs y Hy).
      unfold log_msg. destruct (lr_observed (fst y)) eqn:Eo; [eexists; reflexivity|exfalso; apply Hobs; exact Eo]. }
    rewrite Hm. eexists. reflexivity. }
  destruct (all_some_total _ _ (log_group_msg r) (order gs)) as [ps Hps].
  { apply Forall_forall. intros g Hg. apply Hmsg. eapply Permutation_in; [apply Ho|exact Hg]. }
  exists (mk_presource (attrs_msg (re_attrs r)) (or_empty (re_url r)) ps), (map fst (order gs)).
  split; [unfold logs_msg; fold gs; rewrite Hps; reflexivity|]. split; [reflexivity|]. split; [reflexivity|].
  assert (Hoin : forall g, In g (order gs) <-> In g gs) by (intros g; split; intros Hg; [eapply Permutation_in; [apply Ho|exact Hg]|eapply Permutation_in; [symmetry; apply Ho|exact Hg]]).
  split.
  { eapply Permutation_NoDup; [apply Permutation_map; symmetry; apply Ho|]. unfold apart in H2. clear - H2. induction H2 as [|g l Hg Hl IH]; cbn [map]; constructor; [|exact IH].
    intros Hin. apply in_map_iff in Hin. destruct Hin as (h & E & Hh). rewrite Forall_forall in Hg. specialize (Hg h Hh). rewrite E, str_eqb_refl in Hg. discriminate. }
  split.
  { intros x Hx. destruct (H3 x Hx) as (g & Hg & E). apply str_eqb_eq in E. rewrite E. apply in_map. apply Hoin. exact Hg. }
  split.
  - cbn [r_groups]. apply all_some_map in Hps. rewrite Forall_forall in H1.
    assert (Hsub : forall g, In g (order gs) -> snd g = filter (fun y => str_eqb (log_key y) (fst g)) logs) by (intros g Hg; apply H1; apply Hoin; exact Hg).
    clear - Hps Hsub. induction Hps as [|g p l ps Hg Hl IH]; cbn [map]; constructor; [|apply IH; intros h Hh; apply Hsub; right; exact Hh].
    specialize (Hsub g (or_introl eq_refl)). rewrite <- Hsub. unfold log_group_msg in Hg. destruct (snd g) as [|f rest] eqn:E; [discriminate|].
    destruct (all_some (map (fun x : lrec * scope => log_msg (fst x)) (f :: rest))) as [items|] eqn:Ei; [|discriminate]. injection Hg as <-. cbn [g_scope g_items]. split; [reflexivity|].
    apply all_some_map in Ei. exact Ei.
  - assert (E : map (fun k => filter (fun x => str_eqb (log_key x) k) logs) (map fst (order gs)) = map snd (order gs)).
    { rewrite map_map. apply map_ext_in. intros g Hg. rewrite Forall_forall in H1. symmetry. apply H1. apply Hoin. exact Hg. }
    rewrite E. etransitivity; [|exact Hperm]. clear - Ho. pose proof (Permutation_map snd (Ho gs)) as Hp. revert Hp. generalize (map snd (order gs)), (map snd gs). clear.
    intros l m H. induction H as [|x l m H IH|x y l|l m n H1 IH1 H2 IH2]; cbn [concat]; [reflexivity|apply Permutation_app_head; exact IH| |etransitivity; eassumption].
    rewrite !app_assoc. apply Permutation_app_tail. apply Permutation_app_comm.
Qed.
Print Assumptions C61_grouping.

(** The single-record conversion does keep the scope of a record without a target. *)
Theorem C61_single_record : forall x r m, resource_logs_from x r = Some m ->
  exists p, log_msg (fst x) = Some p /\ r_groups m = [mk_scoped (scope_msg (snd x) (lr_target (fst x))) (or_empty (sc_url (snd x))) [p]] /\
  (lr_target (fst x) = None -> scope_msg (snd x) (lr_target (fst x)) = mk_pscope (sc_name (snd x)) (or_empty (sc_version (snd x))) (attrs_msg (sc_attrs (snd x)))).
Proof.
  intros x r m H. unfold resource_logs_from in H. destruct (log_msg (fst x)) as [p|]; [|discriminate]. injection H as <-. exists p. split; [reflexivity|]. split; [reflexivity|].
  intros ->. reflexivity.
Qed.
Print Assumptions C61_single_record.

Example C61_nonvacuous :
  option_map (fun m => map (fun g => (ps_name (g_scope g), List.length (g_items g))) (r_groups m))
    (logs_msg (@rev _) [ex_log (mk_scope [97%N] None None []); ex_log (mk_scope [98%N] None None []); ex_log (mk_scope [97%N] (Some [49%N]) None [])] (mk_resource [] None))
  = Some [([98%N], 1%nat); ([97%N], 2%nat)].
Proof. vm_compute. reflexivity. Qed.

(** * C79: the schema URL of the scope *)
(** Lost for spans and logs, which get the resource's instead. *)
Theorem C126_span_schema_url_refuted : ~ (forall srt same order spans r g, sorter_ok srt -> map_lookup srt same -> permutes order ->
  In g (r_groups (spans_msg same order spans r)) -> exists s, In s spans /\ In (span_msg s) (g_items g) /\ g_url g = or_empty (sc_url (d_scope s))).
Proof.
  intros H. specialize (H isort (scope_eqb isort) (fun l => l) [ex_sdata 7 (mk_scope [] None (Some [117%N]) [])] (mk_resource [] None)).
  specialize (H _ isort_ok (conj (fun _ _ E => E) (fun _ _ E _ => E)) (fun l => Permutation_refl l) (or_introl eq_refl)).
  destruct H as (s & [<- |[]] & _ & E). vm_compute in E. discriminate.
Qed.
Print Assumptions C126_span_schema_url_refuted.
Theorem C126_log_schema_url_refuted : ~ (forall order logs r m g, permutes order -> logs_msg order logs r = Some m -> In g (r_groups m) ->
  exists x, In x logs /\ g_url g = or_empty (sc_url (snd x))).
Proof.
  intros H. specialize (H (fun l => l) [ex_log (mk_scope [97%N] None (Some [117%N]) [])] (mk_resource [] None)).
  destruct (logs_msg (fun l => l) _ _) as [m|] eqn:E in H; [|vm_compute in E; discriminate]. vm_compute in E. injection E as E. subst m.
  specialize (H _ _ (fun l => Permutation_refl l) eq_refl (or_introl eq_refl)). destruct H as (x & [<- |[]] & E). vm_compute in E. discriminate.
Qed.
Print Assumptions C126_log_schema_url_refuted.
(** What spans and logs get is the URL of the resource. *)
Theorem C79_spans_and_logs_get_resource_url : forall same order spans lorder logs r,
  Forall (fun g => g_url g = or_empty (re_url r)) (r_groups (spans_msg same order spans r)) /\
  (forall m, logs_msg lorder logs r = Some m -> Forall (fun g => g_url g = or_empty (re_url r)) (r_groups m)).
Proof.
  intros same order spans lorder logs r. split.
  - unfold spans_msg. cbn [r_groups]. apply Forall_map. apply Forall_forall. reflexivity.
  - intros m H. unfold logs_msg in H. destruct (all_some (map (log_group_msg r) _)) as [ps|] eqn:E; [|discriminate]. injection H as <-. cbn [r_groups]. apply all_some_map in E.
    induction E as [|g p l ps Hg Hl IH]; constructor; [|exact IH]. unfold log_group_msg in Hg. destruct (snd g); [discriminate|]. destruct (all_some _); [|discriminate]. injection Hg as <-. reflexivity.
Qed.
Print Assumptions C79_spans_and_logs_get_resource_url.
(** Kept for metrics, together with the scope and the metrics in order; and kept by the
    conversion of a single span. *)
Theorem C79_metric_scopes : forall r sms,
  Forall2 (fun sm g => g_scope g = mk_pscope (sc_name (fst sm)) (or_empty (sc_version (fst sm))) (attrs_msg (sc_attrs (fst sm))) /\
    g_url g = or_empty (sc_url (fst sm)) /\ Forall2 (fun m p => p = metric_msg m) (snd sm) (g_items g)) sms (r_groups (metrics_msg r sms)) /\
  r_rattrs (metrics_msg r sms) = attrs_msg (re_attrs r) /\ r_rurl (metrics_msg r sms) = or_empty (re_url r).
Proof.
  intros r sms. split; [|split; reflexivity]. unfold metrics_msg. cbn [r_groups]. induction sms as [|sm sms IH]; cbn [map]; constructor; [|exact IH]. cbn [g_scope g_url g_items].
  split; [reflexivity|]. split; [reflexivity|]. induction (snd sm) as [|m l IHl]; cbn [map]; constructor; [reflexivity|exact IHl].
Qed.
Print Assumptions C79_metric_scopes.
Theorem C79_single_span : forall s r, r_groups (resource_spans_new s r) =
  [mk_scoped (mk_pscope (sc_name (d_scope s)) (or_empty (sc_version (d_scope s))) (attrs_msg (sc_attrs (d_scope s)))) (or_empty (sc_url (d_scope s))) [span_msg s]].
Proof. reflexivity. Qed.
Print Assumptions C79_single_span.
