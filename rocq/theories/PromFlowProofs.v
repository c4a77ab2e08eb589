(** Metrics from the instruments to a Prometheus scrape: supporting lemmas. *)
From Coq Require Import String List Bool Arith NArith ZArith Reals Lia Permutation Sorting.Sorted.
From Verif Require Import Str StrProofs F64 F64Proofs InstrModel AttrModel ValueMapProps PipelineModel PipelineProps ProduceModel EndModel EndSpec
  HistModel HistProps MetricWireModel MetricWireSpec MetricWireProofs PromFlowSpec.
From Verif Require KvModel OtlpModel PromModel PromProps.
Import ListNotations.
Local Open Scope nat_scope.

(** * A scrape, by the families known at its end *)
Section scrape.
Context (alnum : char -> bool) (show : KvModel.value -> str) (cfg : PromModel.config).
Notation register := (PromProps.register alnum cfg).
Notation registers := (PromProps.registers alnum cfg).
Notation tn := (PromModel.type_and_name alnum cfg).
Notation find := PromModel.find_fam.
Definition fine (m : OtlpModel.metric) : Prop := forall n h extra, PromModel.add_metric show n h extra (OtlpModel.me_data m) <> None.
Definition famof (s : PromModel.seen) (extra : list (str * str)) (m : OtlpModel.metric) : list PromModel.family :=
  match tn m with
  | None => []
  | Some (t, n) =>
    match find n s with
    | Some (t', h) => if PromModel.mtype_eqb t' t then match PromModel.add_metric show n h extra (OtlpModel.me_data m) with Some fs => fs | None => [] end else []
    | None => []
    end
  end.
Lemma registered m s t n : tn m = Some (t, n) -> find n (register m s) <> None.
Proof.
  intros E. unfold PromProps.register. rewrite E. destruct (find n s) eqn:F; [congruence|]. cbn [PromModel.find_fam]. rewrite str_eqb_refl. discriminate.
Qed.
Lemma one_ok extra m s : fine m -> PromModel.one_metric alnum show cfg extra m s = Some (famof (register m s) extra m, register m s).
Proof.
  intros Hf. unfold PromModel.one_metric, famof, PromProps.register. destruct (tn m) as [[t n]|]; [|reflexivity].
  unfold PromModel.validate. destruct (find n s) as [[t' h]|] eqn:F.
  - rewrite F. destruct (PromModel.mtype_eqb t' t); cbn [negb]; [|reflexivity].
    destruct (str_eqb_spec h (OtlpModel.me_desc m)) as [->|]; cbn [negb]; (destruct (PromModel.add_metric show n _ extra (OtlpModel.me_data m)) eqn:E; [reflexivity|destruct (Hf _ _ _ E)]).
  - cbn [PromModel.find_fam]. rewrite str_eqb_refl. assert (M : PromModel.mtype_eqb t t = true) by (destruct t; reflexivity). rewrite M.
    destruct (PromModel.add_metric show n _ extra (OtlpModel.me_data m)) eqn:E; [reflexivity|destruct (Hf _ _ _ E)].
Qed.
Lemma famof_stable ms extra m s : (forall t n, tn m = Some (t, n) -> find n s <> None) -> famof (registers ms s) extra m = famof s extra m.
Proof.
  intros H. unfold famof. destruct (tn m) as [[t n]|]; [|reflexivity]. specialize (H t n eq_refl). destruct (find n s) as [v|] eqn:F; [|contradiction].
  rewrite (PromProps.registers_keeps alnum cfg ms s n v F). reflexivity.
Qed.
Lemma known_after ms : forall s m, In m ms -> forall t n, tn m = Some (t, n) -> find n (registers ms s) <> None.
Proof.
  induction ms as [|m0 ms IH]; intros s m H t n E; [destruct H|]. change (registers (m0 :: ms) s) with (registers ms (register m0 s)). destruct H as [<-|H]; [|exact (IH _ m H t n E)].
  destruct (find n (register m0 s)) as [v|] eqn:F; [|destruct (registered m0 s t n E F)]. rewrite (PromProps.registers_keeps alnum cfg ms _ n v F). discriminate.
Qed.
Lemma metrics_ok extra ms : forall s, Forall fine ms -> PromModel.metrics_loop alnum show cfg extra ms s = Some (flat_map (famof (registers ms s) extra) ms, registers ms s).
Proof.
  induction ms as [|m ms IH]; intros s H; [reflexivity|]. inversion H as [|? ? H1 H2]; subst. cbn [PromModel.metrics_loop]. rewrite (one_ok extra m s H1), (IH _ H2). cbn [option_map fst snd flat_map].
  change (registers (m :: ms) s) with (registers ms (register m s)).
  rewrite (famof_stable ms extra m (register m s)); [reflexivity|]. intros t n E. apply (registered m s t n E).
Qed.
Definition scope_extra (reslabels : list (str * str)) (sc : KvModel.scope) := if PromModel.disable_scope_info cfg then [] else PromModel.scope_name_labels sc ++ reslabels.
Definition scope_infos (sc : KvModel.scope) := if PromModel.disable_scope_info cfg then [] else match KvModel.sc_attrs sc with [] => [] | _ => [PromModel.scope_info sc] end.
Lemma scopes_ok rl sms : forall s, Forall (fun sm => Forall fine (snd sm)) sms ->
  PromModel.scopes_loop alnum show cfg rl sms s =
  Some (flat_map (fun sm => scope_infos (fst sm) ++ flat_map (famof (registers (flat_map snd sms) s) (scope_extra rl (fst sm))) (snd sm)) sms, registers (flat_map snd sms) s).
Proof.
  induction sms as [|[sc ms] sms IH]; intros s H; [reflexivity|]. inversion H as [|? ? H1 H2]; subst. cbn [snd] in H1. cbn [PromModel.scopes_loop]. cbv zeta.
  fold (scope_infos sc). fold (scope_extra rl sc). rewrite (metrics_ok _ _ _ H1), (IH _ H2). cbn [option_map fst snd flat_map]. rewrite PromProps.registers_app. do 2 f_equal.
  rewrite app_assoc. f_equal. f_equal. clear -ms. assert (G : forall l, incl l ms -> flat_map (famof (registers ms s) (scope_extra rl sc)) l =
    flat_map (famof (registers (flat_map snd sms) (registers ms s)) (scope_extra rl sc)) l).
  { induction l as [|m l IH]; intros Hi; [reflexivity|]. cbn [flat_map]. rewrite IH by (intros x Hx; apply Hi; right; exact Hx). f_equal. symmetry. apply famof_stable.
    apply known_after, Hi. left. reflexivity. }
  apply G, incl_refl.
Qed.
Lemma where_from ms : forall s n t h, find n (registers ms s) = Some (t, h) ->
  find n s = Some (t, h) \/ (find n s = None /\ exists m, In m ms /\ tn m = Some (t, n) /\ OtlpModel.me_desc m = h).
Proof.
  induction ms as [|m ms IH]; intros s n t h F; [left; exact F|]. change (registers (m :: ms) s) with (registers ms (register m s)) in F.
  destruct (IH _ _ _ _ F) as [G|(G & m' & M1 & M2)].
  - unfold PromProps.register in G. destruct (tn m) as [[t' n']|] eqn:E; [|left; exact G]. destruct (find n' s) eqn:F'; [left; exact G|]. cbn [PromModel.find_fam] in G.
    destruct (str_eqb_spec n n') as [->|]; [|left; exact G]. injection G as <- <-. right. split; [exact F'|]. exists m. split; [left; reflexivity|]. auto.
  - right. split; [|exists m'; split; [right; exact M1|exact M2]]. destruct (find n s) as [v|] eqn:F'; [|reflexivity]. rewrite (PromProps.register_keeps alnum cfg m s n v F') in G. discriminate.
Qed.
End scrape.

(** * The samples of a stream *)
Lemma up_to_bound {T} (into : T -> f64) pp bounds v i b : partition_point_ok pp -> no_nan bounds -> sorted bounds -> f64_is_nan (into v) = false -> nth_error bounds i = Some b ->
  (bucket_index into pp bounds v <=? i) = f64_leb (into v) b.
Proof.
  intros [_ Hpp] Hn Hs Hv Hb. unfold bucket_index. set (f := into v) in *. destruct (split_sorted f bounds Hv Hn Hs) as (x & y & E & Ha & Hc). rewrite E, (Hpp _ x y Ha Hc). rewrite forallb_forall in Ha, Hc.
  assert (Nb := Hn b (nth_error_In _ _ Hb)). assert (Hle : f64_leb f b = true <-> f64_ltb b f = false).
  { rewrite leb_ext by assumption. rewrite <- ltb_ext by assumption. destruct (f64_ltb b f); split; intros; auto; try discriminate. exfalso; auto. }
  rewrite E in Hb. destruct (Nat.leb_spec (length x) i) as [L|L].
  - rewrite nth_error_app2 in Hb by exact L. apply nth_error_In in Hb. specialize (Hc b Hb). apply negb_true_iff in Hc. symmetry. apply Hle, Hc.
  - rewrite nth_error_app1 in Hb by exact L. apply nth_error_In in Hb. specialize (Ha b Hb). cbn beta in Ha. destruct (f64_leb f b) eqn:El; [|reflexivity]. destruct Hle as [Hle _]. rewrite (Hle eq_refl) in Ha. discriminate.
Qed.
Lemma total_nsum l : PromProps.total l = fold_right N.add 0%N l.
Proof. induction l as [|x l IH]; [reflexivity|]. cbn. rewrite IH. reflexivity. Qed.
Lemma total_first counts : forall i n, nth_error counts i = Some n -> PromProps.total (firstn (S i) counts) = (PromProps.total (firstn i counts) + n)%N.
Proof.
  induction counts as [|c counts IH]; intros [|i] n E; try discriminate; cbn [nth_error] in E.
  - injection E as <-. cbn [firstn PromProps.total]. rewrite firstn_O. cbn [PromProps.total]. lia.
  - cbn [firstn PromProps.total]. specialize (IH i n E). cbn [firstn] in IH. rewrite IH. lia.
Qed.
Lemma total_counted {T} (index : T -> nat) vs counts : forall i, S i <= length counts -> (forall j, j < length counts -> nth_error counts j = Some (counted index j vs)) ->
  PromProps.total (firstn (S i) counts) = N.of_nat (length (filter (fun v => index v <=? i) vs)).
Proof.
  intros i Hi H. induction i as [|i IH].
  - rewrite (total_first _ 0 _ (H 0 Hi)). cbn [firstn PromProps.total]. unfold counted. rewrite N.add_0_l. do 2 f_equal. apply filter_ext. intros v. destruct (index v); reflexivity.
  - rewrite (total_first _ (S i) _ (H (S i) Hi)), IH by lia. unfold counted. rewrite <- Nat2N.inj_add. f_equal. clear. induction vs as [|v vs IH]; [reflexivity|]. cbn [filter].
    destruct (Nat.leb_spec (index v) i), (Nat.eqb_spec (index v) (S i)), (Nat.leb_spec (index v) (S i)); cbn [length]; lia.
Qed.
Lemma map_filter_length {X Y} (f : X -> Y) p l : length (filter p (map f l)) = length (filter (fun x => p (f x)) l).
Proof. induction l as [|x l IH]; [reflexivity|]. cbn [map filter]. destruct (p (f x)); cbn [length]; rewrite IH; reflexivity. Qed.

(** ** The scrape does not panic *)
Definition shaped (a : agg_state) : Prop :=
  match a with
  | AHZ bounds _ _ b => length (b_counts b) = length bounds + 1
  | AHF bounds _ _ b => length (b_counts b) = length bounds + 1
  | _ => True
  end.
Lemma bump_length i l : length (bump i l) = length l.
Proof. revert i. induction l as [|x l IH]; intros [|i]; cbn; [reflexivity..|]. rewrite IH. reflexivity. Qed.
Lemma cumulates bounds counts : length counts = length bounds + 1 -> forall acc, PromModel.cumulate acc bounds counts <> None.
Proof.
  revert counts. induction bounds as [|b bounds IH]; intros counts E acc; [discriminate|]. destruct counts as [|c counts]; [cbn in E; lia|]. cbn [PromModel.cumulate]. cbv zeta.
  specialize (IH counts). cbn [length] in E. specialize (IH ltac:(lia) ((acc + c) mod 2 ^ 64)%N). destruct (PromModel.cumulate _ bounds counts); [discriminate|contradiction].
Qed.
Lemma all_some_fine {X Y} (f : X -> option Y) l : (forall x, In x l -> f x <> None) -> OtlpModel.all_some (map f l) <> None.
Proof.
  induction l as [|x l IH]; intros H; [discriminate|]. cbn. destruct (f x) eqn:E; [|destruct (H x (or_introl eq_refl) E)].
  specialize (IH (fun y Hy => H y (or_intror Hy))). destruct (OtlpModel.all_some (map f l)); [discriminate|contradiction].
Qed.
Lemma stream_fine {Vl} (val : Vl -> KvModel.value) show c p start time (pts : list (list (kv Vl) * agg_state)) : Forall (fun q => shaped (snd q)) pts -> fine show (w_metric val (metric_of p start time c pts)).
Proof.
  intros H n h extra. unfold w_metric, metric_of. cbn [OtlpModel.me_data m_data fst snd m_name m_desc m_unit].
  destruct (k_num (c_key c)), (c_impl c); cbn [w_data PromModel.add_metric PromModel.add_points ProduceModel.h_points]; try discriminate.
  all: apply all_some_fine; intros x Hx; unfold zh_points, fh_points in Hx; apply in_flat_map in Hx; destruct Hx as (q & Q1 & Q2); rewrite Forall_forall in H; specialize (H q Q1);
    destruct (snd q); try destruct Q2 as [<-|[]]; try destruct Q2; cbn [shaped] in H; unfold hist_point; cbn [OtlpModel.h_bounds OtlpModel.h_buckets OtlpModel.h_attrs OtlpModel.h_sum OtlpModel.h_count h_point hp_bounds hp_counts];
    match goal with |- context[PromModel.cumulate ?a ?x ?y] => pose proof (cumulates x y H a) as Hc; destruct (PromModel.cumulate a x y); [discriminate|contradiction] end.
Qed.

Lemma type_of {Vl} (val : Vl -> KvModel.value) alnum cfg p start time (c : @config (kv Vl)) (pts : list (list (kv Vl) * agg_state)) :
  PromModel.type_and_name alnum cfg (w_metric val (metric_of p start time c pts)) = exported alnum cfg c.
Proof.
  unfold PromModel.type_and_name, exported, w_metric, metric_of. cbn [OtlpModel.me_data m_data fst snd m_name m_desc m_unit].
  set (nm := PromModel.get_name _ _ _). assert (En : nm = PromProps.opt_app (PromModel.namespace cfg) ++ PromModel.sanitize_name alnum (c_name c) ++ PromProps.us (if PromModel.without_units cfg then None else PromModel.unit_suffix (c_unit c))).
  { unfold nm, PromModel.get_name. cbn [OtlpModel.me_name OtlpModel.me_unit]. destruct (PromModel.namespace cfg), (PromModel.without_units cfg); cbn [PromProps.opt_app PromProps.us];
    try (destruct (PromModel.unit_suffix (c_unit c))); cbn [PromProps.us]; rewrite ?app_nil_r; reflexivity. }
  clearbody nm. subst nm.
  destruct (k_num (c_key c)), (c_impl c) as [?|[]|[]|? ? ?|? ? ? ?]; cbn [w_data PromModel.amdata_type PromModel.data_type s_mono andb]; try reflexivity; try (rewrite !app_nil_r; reflexivity);
    destruct (PromModel.without_counter_suffixes cfg); cbn [negb]; rewrite ?app_nil_r, <- ?app_assoc; reflexivity.
Qed.
Section points.
Context (pp : (f64 -> bool) -> list f64 -> nat) (fsort : list f64 -> list f64) (Hpp : partition_point_ok pp) (Hfs : f64_sort_ok fsort).
Lemma hist_buckets {T} plus lt (zero tmin tmax : T) into given vs (inj : T -> number) : (forall v, as_float (inj v) = into v) -> (N.of_nat (length vs) < 2 ^ 64)%N ->
  let bounds := fsort (retained given) in
  let b := fold_left (h_update plus lt into pp bounds) vs (h_create zero tmin tmax bounds) in
  exists bs, PromModel.cumulate 0 bounds (b_counts b) = Some bs /\
    (forall x, In x (map fst bs) <-> In x given /\ f64_is_nan x = false) /\ StronglySorted (fun x y => f64_leb x y = true) (map fst bs) /\
    ((forall x, In x (map inj vs) -> f64_is_nan (as_float x) = false) -> forall x n, In (x, n) bs -> n = N.of_nat (length (filter (fun y => f64_leb (as_float y) x) (map inj vs)))).
Proof using Hpp Hfs.
  intros Hi Hlen bounds b. destruct (bounds_of fsort Hfs given) as (B1 & B2 & B3). fold bounds in B1, B2, B3.
  destruct (C47_counts T plus lt zero tmin tmax into pp bounds vs Hpp) as (C1 & C2 & C3 & C4 & _). fold b in C1, C2, C3, C4.
  assert (Et : PromProps.total (b_counts b) = N.of_nat (length vs)) by (rewrite total_nsum; rewrite <- C3, <- C4; clear; induction (b_counts b) as [|x l IH]; [reflexivity|]; cbn; rewrite IH; reflexivity).
  destruct (PromProps.cumulate_spec bounds (b_counts b) 0) as [[L _]|[_ (bs & E1 & E2 & E3)]]; [lia|lia|]. exists bs. split; [exact E1|]. rewrite E2. split; [exact B1|]. split; [exact B3|].
  intros Hv x n Hin. apply In_nth_error in Hin. destruct Hin as (i & Ei). rewrite (E3 _ _ _ Ei), N.add_0_l.
  assert (Eb : nth_error bounds i = Some x) by (rewrite <- E2; apply (map_nth_error fst _ _ Ei)). assert (Li : i < length bounds) by (apply nth_error_Some; congruence).
  rewrite (total_counted (bucket_index into pp bounds) vs) by (try lia; intros j Hj; apply C2; lia). f_equal. rewrite map_filter_length. f_equal. apply filter_ext_in. intros v Hvin. rewrite Hi.
  apply up_to_bound; try assumption. rewrite <- Hi. apply Hv, in_map, Hvin.
Qed.

Context {Vl : Type} (val : Vl -> KvModel.value) (ln : f64 -> f64).
Notation attrs := (list (kv Vl)).
Notation new := (w_create fsort f64_MIN f64_MAX).
Notation upd := (w_update pp ln).

Lemma shaped_new u im : shaped (new u im).
Proof. destruct im, u; cbn; rewrite ?repeat_length; auto. Qed.
Lemma shaped_upd u im a v : shaped a -> shaped (upd u im a v).
Proof.
  destruct a, v; cbn [w_update]; auto; try (destruct im; exact (fun _ => I)); cbn [shaped]; unfold h_update, b_update; cbn [b_counts]; rewrite ?bump_length; auto.
Qed.
Lemma shaped_all u im l : forall a, shaped a -> shaped (fold_left (upd u im) l a).
Proof. induction l as [|v l IH]; intros a H; [exact H|]. apply IH, shaped_upd, H. Qed.
(** ** What is shown *)
Lemma some_points {X Y Z W} (f : X * Y -> list Z) (g : Z -> option W) (P : X -> W -> Prop) pts : forall r,
  OtlpModel.all_some (map g (flat_map f pts)) = Some r -> (forall p, In p pts -> exists x, f p = [x] /\ forall w, g x = Some w -> P (fst p) w) -> Forall2 P (map fst pts) r.
Proof.
  induction pts as [|p pts IH]; intros r E H; cbn [flat_map map] in *; [injection E as <-; constructor|]. destruct (H p (or_introl eq_refl)) as (x & Ex & Hx). rewrite Ex in E. cbn in E.
  destruct (g x) as [w|] eqn:G; [|discriminate]. destruct (OtlpModel.all_some (map g (flat_map f pts))) eqn:E2; [|discriminate]. injection E as <-. constructor; [apply Hx; reflexivity|].
  apply IH; [reflexivity|]. intros q Hq. apply H. right. exact Hq.
Qed.
Lemma stream_sampled show alnum cfg c p start time (pts : list (attrs * agg_state)) (l : attrs -> list number) t name help extra fs :
  let u := k_num (c_key c) in
  (forall q, In q pts -> snd q = fold_left (upd u (c_impl c)) (l (fst q)) (new u (c_impl c))) ->
  (forall q, In q pts -> Forall (number_typed u) (l (fst q)) /\ l (fst q) <> [] /\ (N.of_nat (length (l (fst q))) < 2 ^ 64)%N) ->
  exported alnum cfg c = Some (t, name) ->
  PromModel.add_metric show name help extra (OtlpModel.me_data (w_metric val (metric_of p start time c pts))) = Some fs ->
  Forall2 (fun a f => PromModel.f_name f = name /\ PromModel.f_help f = help /\ PromModel.f_type f = t /\ PromModel.f_labels f = PromModel.get_attrs show (map (w_attr val) a) extra /\
    sample u (c_impl c) (l a) (PromModel.f_value f)) (map fst pts) fs.
Proof using Hpp Hfs.
  intros u Hs Hl Ex Ea.
  assert (Zs : u <> F64n -> forall q, In q pts -> exists zs, l (fst q) = map NZ zs /\ zs <> [] /\ Forall (number_typed u) (map NZ zs) /\ (N.of_nat (length zs) < 2 ^ 64)%N).
  { intros Hu q Hq. destruct (Hl q Hq) as (H1 & H2 & H3). destruct (ints_all u _ Hu H1) as [E E']. exists (ints (l (fst q))). rewrite E'. split; [exact E|]. rewrite <- E. split; [|auto].
    intros E0. rewrite E0 in E. contradiction. }
  assert (Fs : u = F64n -> forall q, In q pts -> exists fs, l (fst q) = map NF fs /\ fs <> [] /\ (N.of_nat (length fs) < 2 ^ 64)%N).
  { intros Hu q Hq. destruct (Hl q Hq) as (H1 & H2 & H3). rewrite Hu in H1. destruct (floats_all _ H1) as [E E']. exists (floats (l (fst q))). rewrite E'. split; [exact E|]. split; [|exact H3]. intros E0. rewrite E0 in E. contradiction. }
  assert (LZ : forall zs, zs <> [] -> exists l' x, map NZ zs = l' ++ [x] /\ f64_of_Z (last zs 0%Z) = as_float x).
  { intros zs Hne. exists (map NZ (removelast zs)), (NZ (last zs 0%Z)). split; [|reflexivity]. change [NZ (last zs 0%Z)] with (map NZ [last zs 0%Z]). rewrite <- map_app, <- (app_removelast_last 0%Z Hne). reflexivity. }
  assert (LF : forall zs, zs <> [] -> exists l' x, map NF zs = l' ++ [x] /\ last zs (f64_of_Z 0) = as_float x).
  { intros zs Hne. exists (map NF (removelast zs)), (NF (last zs (f64_of_Z 0))). split; [|reflexivity]. change [NF (last zs (f64_of_Z 0))] with (map NF [last zs (f64_of_Z 0)]). rewrite <- map_app, <- (app_removelast_last (f64_of_Z 0) Hne). reflexivity. }
  assert (SZ : u <> F64n -> forall zs, number_typed u (total u (map NZ zs)) -> f64_of_Z (fold_left (fun a v => wrap u (a + v)%Z) zs 0%Z) = as_float (total u (map NZ zs))).
  { intros Hu zs Hr. rewrite (sum_wraps u zs Hu). assert (Et : total u (map NZ zs) = NZ (zsum zs)) by (unfold total; rewrite ints_map; destruct u; [reflexivity|reflexivity|contradiction]).
    rewrite Et in *. rewrite (wrap_in_range u _ Hu Hr). reflexivity. }
  unfold w_metric, metric_of in Ea. unfold exported in Ex. cbn [OtlpModel.me_data m_data fst snd m_name m_desc m_unit] in Ea. fold u in Ea.
  destruct (c_impl c) as [d|mono|mono|given mm rs|size scale mm rs] eqn:Ei; [..|discriminate]; destruct u eqn:Eu; try (destruct mono); injection Ex as <- <-;
    cbn [w_data PromModel.add_metric PromModel.add_points g_points s_points s_mono ProduceModel.h_points] in Ea;
    first [injection Ea as <-; unfold z_points, f_points; apply flat_points; intros q Hq | unfold zh_points, fh_points in Ea; eapply some_points; [exact Ea|]; intros q Hq; cbn beta]; rewrite (Hs q Hq);
    try (destruct (Zs ltac:(discriminate) q Hq) as (zs & E & Hne & Ht & Hlen); rewrite E in *); try (destruct (Fs eq_refl q Hq) as (fs' & E & Hne & Hlen); rewrite E in *); cbn [w_create].
  all: first [rewrite last_z | rewrite last_f | rewrite sum_z | rewrite sum_f | rewrite pre_z | rewrite pre_f | rewrite hist_z | rewrite hist_f]; eexists; (split; [reflexivity|]).
  all: try (cbn [PromModel.f_name PromModel.f_help PromModel.f_type PromModel.f_labels PromModel.f_value OtlpModel.n_attrs OtlpModel.n_value sample]; do 4 (split; [reflexivity|]);
    first [apply LZ, Hne | apply LF, Hne | apply SZ; discriminate | intros _; unfold total; rewrite floats_map; reflexivity]).
  all: intros w Ew; unfold hist_point in Ew; cbn [OtlpModel.h_bounds OtlpModel.h_buckets OtlpModel.h_attrs OtlpModel.h_sum OtlpModel.h_count h_point hp_bounds hp_counts hp_count hp_sum] in Ew.
  all: match type of Ew with context[fold_left (h_update ?plus ?lt ?into pp ?bounds) ?vs (h_create ?zero ?tmin ?tmax ?bounds)] =>
    let inj := match type of vs with list Z => NZ | _ => NF end in
    destruct (hist_buckets plus lt zero tmin tmax into given vs inj ltac:(reflexivity) Hlen) as (bs & B1 & B2 & B3 & B4);
    destruct (C47_counts _ plus lt zero tmin tmax into pp bounds vs Hpp) as (_ & _ & C3 & _ & C5) end.
  all: rewrite B1 in Ew; cbn [option_map] in Ew; apply (f_equal (fun o => match o with Some x => x | None => w end)) in Ew; cbn beta iota in Ew; rewrite <- Ew; cbn [PromModel.f_name PromModel.f_help PromModel.f_type PromModel.f_labels PromModel.f_value sample]; do 4 (split; [reflexivity|]).
  all: split; [|split; [rewrite C3, map_length; reflexivity|split; [exact B2|split; [exact B3|exact B4]]]].
  all: intros ->; rewrite C5; first [apply SZ; discriminate | intros _; unfold total; rewrite floats_map; reflexivity].
Qed.
End points.

(** * All streams, whatever their scopes *)
Lemma filter_at_most {X} (f : X -> bool) l : length (filter f l) <= length l.
Proof. induction l as [|x l IH]; [auto|]. cbn [filter]. destruct (f x); cbn [length]; lia. Qed.
Lemma fm_cons {X Y} (f : X -> list Y) x l : flat_map f (x :: l) = f x ++ flat_map f l.
Proof. reflexivity. Qed.
Lemma flat_map_split {X Y} (f g : X -> list Y) l : Permutation (flat_map (fun x => f x ++ g x) l) (flat_map f l ++ flat_map g l).
Proof.
  induction l as [|x l IH]; [constructor|]. cbn [flat_map]. rewrite IH, <- !app_assoc. apply Permutation_app_head. rewrite !app_assoc. apply Permutation_app_tail, Permutation_app_comm.
Qed.
Lemma by_group {X G Y} (dec : forall x y : G, {x = y} + {x <> y}) (key : X -> G) (part : X -> list Y) cs : forall gs, NoDup gs -> (forall c, In c cs -> In (key c) gs) ->
  Permutation (flat_map (fun g => flat_map (fun c => if dec (key c) g then part c else []) cs) gs) (flat_map part cs).
Proof.
  induction cs as [|c cs IH]; intros gs Hn Hin; cbn [flat_map].
  - clear. induction gs; [constructor|exact IHgs].
  - rewrite (flat_map_split (fun g => if dec (key c) g then part c else []) (fun g => flat_map (fun c => if dec (key c) g then part c else []) cs)).
    apply Permutation_app; [|apply IH; [exact Hn|intros x Hx; apply Hin; right; exact Hx]].
    assert (Hc := Hin c (or_introl eq_refl)). clear -Hn Hc. assert (Z : forall gs, ~ In (key c) gs -> flat_map (fun g => if dec (key c) g then part c else []) gs = []).
    { induction gs0 as [|g gs0 IHg]; intros H; [reflexivity|]. cbn [flat_map]. destruct (dec (key c) g) as [<-|]; [destruct H; left; reflexivity|]. apply IHg. intros X1. apply H. right. exact X1. }
    induction Hn as [|g gs Hg _ IHn]; [destruct Hc|]. cbn [flat_map]. destruct (dec (key c) g) as [<-|Ne]; [rewrite (Z _ Hg), app_nil_r; reflexivity|].
    destruct Hc as [->|Hc]; [contradiction|]. exact (IHn Hc).
Qed.
Lemma report_flat {Vl Y} (val : Vl -> KvModel.value) sc_dec (F : KvModel.scope -> OtlpModel.metric -> list Y) p (start time : config -> Z) (pts : config -> list (list (kv Vl) * agg_state)) cs scs :
  flat_map (fun sm => flat_map (F (fst sm)) (snd sm)) (map (fun sm => (w_scope val (sm_scope sm), map (w_metric val) (sm_metrics sm))) (report sc_dec p start time pts cs scs)) =
  flat_map (fun sc => flat_map (fun c => if sc_dec (scope_of c) sc then
    match pts c with [] => [] | _ => F (w_scope val (scope_of c)) (w_metric val (metric_of p (start c) (time c) c (pts c))) end else []) cs) scs.
Proof.
  unfold report. induction scs as [|sc scs IH]; [reflexivity|]. rewrite !fm_cons, map_app, flat_map_app. rewrite IH. f_equal. clear IH.
  transitivity (flat_map (F (w_scope val sc)) (map (w_metric val) (scope_report sc_dec p start time pts cs sc))).
  { destruct (scope_report sc_dec p start time pts cs sc); [reflexivity|]. cbn [map flat_map fst snd sm_scope sm_metrics]. rewrite app_nil_r. reflexivity. }
  unfold scope_report. induction cs as [|c cs IH]; [reflexivity|]. rewrite !fm_cons, map_app, flat_map_app, IH. f_equal.
  destruct (sc_dec (scope_of c) sc) as [<-|]; [|reflexivity]. destruct (pts c); [reflexivity|]. cbn [map flat_map]. rewrite app_nil_r. reflexivity.
Qed.
