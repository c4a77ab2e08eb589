(** The machine of EndModel.v meets EndSpec.v. *)
From Coq Require Import List Bool Arith NArith Lia.
From Verif Require Import Str StrProofs InstrModel ProviderModel ProviderProps AttrModel AttrProofs ValueMapModel ValueMapProofs ValueMapProps SeqModel SeqSpec SeqProofs
  PipelineModel PipelineProps ProduceModel ProduceProps EndModel EndSpec.
From Verif Require ObservableModel ObservableProps.
Import ListNotations.

Lemma nth_combine_seq {X} (l : list X) : forall k j, nth_error (combine (seq k (length l)) l) j = option_map (pair (k + j)) (nth_error l j).
Proof.
  induction l as [|x l IH]; intros k [|j]; cbn [length seq combine nth_error option_map]; try reflexivity.
  - now rewrite Nat.add_0_r.
  - rewrite IH. destruct (nth_error l j); cbn; [|reflexivity]. do 2 f_equal. lia.
Qed.
Lemma nth_combine {X Y} (l : list X) : forall (l' : list Y) j, nth_error (combine l l') j =
  match nth_error l j, nth_error l' j with Some x, Some y => Some (x, y) | _, _ => None end.
Proof.
  induction l as [|x l IH]; intros [|y l'] [|j]; cbn; try reflexivity; [destruct (nth_error l j); reflexivity|apply IH].
Qed.

Lemma nth_error_nil {X} j : nth_error (@nil X) j = None.
Proof. destruct j; reflexivity. Qed.

Section endp.
Context {Vl A Nv T R : Type}.
Notation attrs := (list (kv Vl)).
Notation V := (attrs * Nv)%type.
Notation scope := (InstrModel.scope (kv Vl)).
Context (sc_dec : forall x y : scope, {x = y} + {x <> y}) (keq : forall x y : attrs, {x = y} + {x <> y}).
Context (views : list (instrument (kv Vl) -> option stream)) (yes : Vl) (srt : attrs -> attrs).
Context (ord : tmap (KV := kv Vl) -> list nat) (scope_order : list scope -> list scope).
Context (create : num -> impl -> A) (update : num -> impl -> A -> Nv -> A) (accepts : impl -> Nv -> bool).
Context (sub : num -> A -> A -> A).
Context (pref : nat -> temporality) (res : R) (empty_scope : scope).
Context (Hsrt : sorter_ok srt) (Hord : forall m, pick (ord m) m <> None).
Context (Hsc : forall l sc, In sc (scope_order l) <-> In sc l).

Notation sync := (@sync (kv Vl) V).
Notation store := (@store Vl A).
Notation inst := (@ProduceModel.inst T store).
Notation canon := (sort_and_dedup srt).
Notation store_measure := (store_measure keq yes srt create update accepts).
Notation store_readonly := (store_readonly (Vl := Vl) (A := A) ord).
Notation store_reset := (store_reset keq ord create sub).
Notation store_new := (store_new create).
Notation inst_measure := (inst_measure keq yes srt create update accepts).
Notation new_inst := (new_inst create pref).
Notation absorb := (absorb keq yes srt create update accepts pref).
Notation estep := (estep sc_dec keq views yes srt ord scope_order create update accepts sub pref res empty_scope).
Notation erun := (erun sc_dec keq views yes srt ord scope_order create update accepts sub pref res empty_scope).
Notation mrun := (PipelineModel.mrun (V := V) sc_dec views).
Notation mstep := (PipelineModel.mstep (V := V) sc_dec views).
Notation syncs := (@syncs Vl Nv).
Notation expected := (PipelineProps.expected (V := V) sc_dec views).
Notation received := (PipelineProps.received (V := V) sc_dec views).
Notation config := (@config (kv Vl)).
Notation event := (@event (kv Vl) V).
Notation cut_at := (@cut_at Vl Nv).

(** ** Stores *)
Definition taken (im : impl) (w : list (source * V)) : list V := filter (fun v => accepts im (snd v)) (map snd w).
Notation acc u im keys limit := (accounted keq (fun k => canon (filtered (keep_of keys) k)) canon (filtered (keep_of keys)) (overflow_attrs yes)
  (create u im) (update u im) (N.to_nat limit)).
Notation get := (ObservableModel.get keq).
(** [w]: the window now, [pw]: the window of the collection before. *)
Definition store_ok (st : store) (u : num) (im : impl) (keys : option (list str)) (limit : N) (d : bool) (w pw : list (source * V)) : Prop :=
  exists m rep, st = SMap u im keys (N.to_nat limit) m rep /\
    srel keq canon (overflow_attrs yes) (keep_of keys) (create u im) (update u im) (N.to_nat limit) d m (taken im w) /\
    (d = true -> (exists b, im = IPre b) -> exists prev, acc u im keys limit (taken im pw) prev /\ forall k, get k rep = get k prev).
Lemma accounted_nil u im keys limit : acc u im keys limit [] [].
Proof. exists []. split; [reflexivity|]. split; [intros ? ? []|]. split; [constructor|]. split; [intros ? []|intros ? ? []]. Qed.
Lemma store_ok_new u im keys limit d : store_ok (store_new u im keys limit) u im keys limit d [] [].
Proof.
  eexists _, []. split; [reflexivity|]. split; [apply srel_new|]. intros _ _. exists []. split; [apply accounted_nil|reflexivity].
Qed.
Lemma store_ok_one st u im keys limit d w pw x : store_ok st u im keys limit d w pw -> store_ok (store_measure st (snd x)) u im keys limit d (w ++ [x]) pw.
Proof.
  intros (m & rep & -> & Hm & Hr). unfold taken. cbn [EndModel.store_measure]. unfold store_ok, taken. rewrite map_app, filter_app. cbn [map filter].
  destruct (accepts im (snd (snd x))); [|exists m, rep; rewrite app_nil_r; auto]. eexists _, rep. split; [reflexivity|]. split; [|exact Hr].
  destruct x as [src [k v]]. cbn [snd fst]. apply srel_measure; auto.
  - intros k'. apply canon_idem, Hsrt.
  - intros k'. apply canon_nil, Hsrt.
  - apply canon_single, Hsrt.
  - discriminate.
Qed.
Lemma store_points m u im keys limit d w : srel keq canon (overflow_attrs yes) (keep_of keys) (create u im) (update u im) (N.to_nat limit) d m w ->
  acc u im keys limit w (SeqModel.points_now ord m).
Proof.
  intros Hm. exact (srel_points keq canon (overflow_attrs yes) (keep_of keys) (create u im) (update u im) (N.to_nat limit) d ord Hord
    (fun k => canon_idem srt Hsrt k) (fun k => canon_nil srt Hsrt k) (canon_single srt Hsrt _) ltac:(discriminate) m _ Hm).
Qed.
Lemma acc_nodup u im keys limit w pts : acc u im keys limit w pts -> NoDup (map fst pts).
Proof. intros (bk & _ & _ & H & _). apply (NoDup_map_inv canon). rewrite map_map. exact H. Qed.
Lemma store_ok_reset st u im keys limit w pw : store_ok st u im keys limit true w pw -> store_ok (snd (store_reset st)) u im keys limit true [] w.
Proof.
  intros (m & rep & -> & Hm & Hr). pose proof (store_points _ _ _ _ _ _ _ Hm) as Hp.
  assert (Hm' : srel keq canon (overflow_attrs yes) (keep_of keys) (create u im) (update u im) (N.to_nat limit) true (snd (reset_now (create u im) ord m)) []).
  { eapply srel_reset; eauto.
    - intros k'. apply canon_idem, Hsrt.
    - intros k'. apply canon_nil, Hsrt.
    - apply canon_single, Hsrt.
    - discriminate. }
  destruct im; cbn [EndModel.store_reset reset_now snd ObservableModel.pre_delta];
    eexists _, _; (split; [reflexivity|]; split; [exact Hm'|]; intros _ (b & Eb); try discriminate Eb).
  exists (SeqModel.points_now ord m). split; [exact Hp|]. intros k. rewrite ObservableProps.get_fold by (eapply acc_nodup, Hp). cbn [ObservableModel.get]. now destruct (get k (SeqModel.points_now ord m)).
Qed.
Lemma acc_kept c : (fun k => canon (filtered (keep_of (c_keys c)) k)) = (fun k => canon (kept (Vl := Vl) c k)) /\ filtered (keep_of (c_keys c)) = kept (Vl := Vl) c.
Proof. unfold kept, filtered, keep_of. destruct (c_keys c); split; reflexivity. Qed.
Lemma get_case k (m : list (attrs * A)) : (exists v, get k m = Some v /\ In (k, v) m) \/ (get k m = None /\ ~ In k (map fst m)).
Proof.
  induction m as [|[k0 v] m IH]; [right; auto|]. cbn [ObservableModel.get map fst In]. destruct (keq k0 k) as [->|Hn]; [left; eauto|].
  destruct IH as [(v' & E & Hin)|[E Hin]]; [left; eauto|right]. split; [exact E|]. intros [X|X]; [exact (Hn X)|exact (Hin X)].
Qed.
Lemma store_ok_points st c w pw (d : bool) : store_ok st (k_num (c_key c)) (c_impl c) (c_keys c) (c_limit c) d w pw ->
  let acc := accounts keq canon (overflow_attrs yes) create update c in
  let pts := if d then fst (store_reset st) else store_readonly st in
  if precomputed c && d then
    exists prev now, acc (taken (c_impl c) pw) prev /\ acc (taken (c_impl c) w) now /\ Forall2 (change create sub c prev) now pts
  else acc (taken (c_impl c) w) pts.
Proof.
  intros (m & rep & -> & Hm & Hr) acc pts. pose proof (store_points _ _ _ _ _ _ _ Hm) as Hp.
  pose proof (acc_kept c) as [K1 K2]. rewrite K1, K2 in Hp. fold (accounts keq canon (overflow_attrs yes) create update c) in Hp. fold acc in Hp.
  assert (Hread : pts = SeqModel.points_now ord m -> acc (taken (c_impl c) w) pts) by (intros ->; exact Hp).
  unfold precomputed. destruct d; [|destruct (c_impl c); apply Hread; reflexivity].
  destruct (c_impl c) as [| |b| |] eqn:Ei; try (apply Hread; reflexivity). cbn [andb].
  destruct (Hr eq_refl (ex_intro _ b eq_refl)) as (prev & P1 & P2). rewrite K1, K2 in P1. exists prev, (SeqModel.points_now ord m). split; [unfold acc, accounts; rewrite Ei; exact P1|]. split; [unfold acc, accounts; rewrite Ei; exact Hp|].
  unfold pts. cbn [EndModel.store_reset reset_now ObservableModel.pre_delta fst]. clear -P2 Ei.
  induction (SeqModel.points_now ord m) as [|[k v] l IH]; [constructor|]. cbn [map]. constructor; [|exact IH]. split; [reflexivity|]. unfold ObservableModel.report. cbn [fst snd]. rewrite P2, Ei.
  destruct (get_case k prev) as [(v' & -> & Hin)|[-> Hin]]; [left; eauto|right; auto].
Qed.

(** ** One step of the pipelines *)
Lemma ask_syncs a (p : @pipe (kv Vl) V) x : exists l, p_syncs (ask sc_dec a p x) = p_syncs p ++ l /\ forall y, In y l -> s_log y = [].
Proof.
  unfold ask, cached_aggregator. destruct (compatible _ _); [|exists []; rewrite app_nil_r; split; [reflexivity|intros y []]].
  destruct (find_cache _ _ _) as [r|]; [exists []; rewrite app_nil_r; split; [reflexivity|intros y []]|].
  destruct (aggregate_fn _ _) as [[im|]|]; cbn; [|exists []; rewrite app_nil_r; split; [reflexivity|intros y []]..].
  eexists. split; [reflexivity|]. intros y [<-|[]]. reflexivity.
Qed.
Lemma asks_syncs a : forall xs (p : @pipe (kv Vl) V), exists l, p_syncs (fold_left (ask sc_dec a) xs p) = p_syncs p ++ l /\ forall y, In y l -> s_log y = [].
Proof.
  induction xs as [|x xs IH]; intros p; cbn [fold_left]; [exists []; rewrite app_nil_r; split; [reflexivity|intros y []]|].
  destruct (IH (ask sc_dec a p x)) as (l & E & H). destruct (ask_syncs a p x) as (l' & E' & H'). exists (l' ++ l). rewrite E, E', app_assoc. split; [reflexivity|].
  intros y Hy. apply in_app_or in Hy. destruct Hy; auto.
Qed.
Lemma step_syncs n es e r j s' : nth_error (syncs r (mstep (mrun n es) e)) j = Some s' ->
  (exists s, nth_error (syncs r (mrun n es)) j = Some s /\ cfg s = cfg s') \/ (nth_error (syncs r (mrun n es)) j = None /\ s_log s' = []).
Proof.
  unfold EndModel.syncs. pose proof (inv0 sc_dec views n es) as I0. rewrite Forall_forall in I0. set (ms := mrun n es) in *.
  assert (Hcase : (exists a, e = Create a) \/ forall a, e <> Create a) by (destruct e; [left; eauto|right; discriminate..]).
  destruct Hcase as [[a ->]|Hne].
  - destruct (step_create sc_dec views a ms) as (_ & Hbad & Hgood). destruct (valid a) eqn:Ev.
    + destruct (Hgood eq_refl) as [E _]. rewrite E, nth_error_map. destruct (nth_error (ms_pipes ms) r) as [ps|] eqn:Er; cbn [option_map]; [|intros H; rewrite nth_error_nil in H; discriminate].
      cbn [ps_pipe]. destruct (inserted sc_dec views a ps) as [p' rr] eqn:Ei. apply nth_error_In in Er.
      destruct (inserter_spec sc_dec views a _ _ _ Ei (proj1 (I0 ps Er))) as [-> _]. cbn [fst].
      destruct (asks_syncs a (streams views a) (ps_pipe ps)) as (l & El & Hl). rewrite El. intros H.
      destruct (Nat.lt_ge_cases j (length (p_syncs (ps_pipe ps)))) as [L|L].
      * rewrite nth_error_app1 in H by exact L. left. eauto.
      * rewrite nth_error_app2 in H by exact L. right. split; [apply nth_error_None; exact L|]. apply Hl. eapply nth_error_In, H.
    + destruct (Hbad eq_refl) as [E _]. rewrite E, nth_error_map. destruct (nth_error (ms_pipes ms) r) as [ps|]; cbn [option_map ps_pipe]; [|intros H; rewrite nth_error_nil in H; discriminate].
      intros H. left. eauto.
  - destruct (step_records sc_dec views ms e Hne) as [E _]. rewrite E, nth_error_map. destruct (nth_error (ms_pipes ms) r) as [ps|]; cbn [option_map]; [|intros H; rewrite nth_error_nil in H; discriminate].
    destruct (record_many_cfg (source_of e) (recorded_by ms e) ps) as (_ & B & _). intros H. left.
    pose proof (map_nth_error cfg j _ H) as H1. rewrite B, nth_error_map in H1. destruct (nth_error (p_syncs (ps_pipe ps)) j) as [s|]; [|discriminate]. exists s. split; [reflexivity|]. change (Some (cfg s) = Some (cfg s')) in H1. congruence.
Qed.
Lemma syncs_length n es e r : length (syncs r (mrun n es)) <= length (syncs r (mstep (mrun n es) e)).
Proof.
  unfold EndModel.syncs. pose proof (inv0 sc_dec views n es) as I0. rewrite Forall_forall in I0. set (ms := mrun n es) in *.
  assert (Hcase : (exists a, e = Create a) \/ forall a, e <> Create a) by (destruct e; [left; eauto|right; discriminate..]).
  destruct Hcase as [[a ->]|Hne].
  - destruct (step_create sc_dec views a ms) as (_ & Hbad & Hgood). destruct (valid a) eqn:Ev.
    + destruct (Hgood eq_refl) as [E _]. rewrite E, nth_error_map. destruct (nth_error (ms_pipes ms) r) as [ps|] eqn:Er; cbn [option_map]; [|cbn; lia].
      cbn [ps_pipe]. destruct (inserted sc_dec views a ps) as [p' rr] eqn:Ei. apply nth_error_In in Er.
      destruct (inserter_spec sc_dec views a _ _ _ Ei (proj1 (I0 ps Er))) as [-> _]. cbn [fst].
      destruct (asks_syncs a (streams views a) (ps_pipe ps)) as (l & El & Hl). rewrite El, app_length. lia.
    + destruct (Hbad eq_refl) as [E _]. rewrite E, nth_error_map. destruct (nth_error (ms_pipes ms) r) as [ps|]; cbn; lia.
  - destruct (step_records sc_dec views ms e Hne) as [E _]. rewrite E, nth_error_map. destruct (nth_error (ms_pipes ms) r) as [ps|]; cbn [option_map]; [|cbn; lia].
    destruct (record_many_cfg (source_of e) (recorded_by ms e) ps) as (_ & B & _). rewrite <- (map_length cfg), <- B, map_length. reflexivity.
Qed.
Lemma mrun_snoc n es e : mrun n (es ++ [e]) = mstep (mrun n es) e.
Proof. unfold PipelineModel.mrun. now rewrite fold_left_app. Qed.
Lemma log_of n es r j s : Forall (coherent views) (creations es) -> nth_error (syncs r (mrun n es)) j = Some s -> s_log s = expected [] (s_key s) es.
Proof.
  unfold EndModel.syncs. destruct (nth_error (ms_pipes (mrun n es)) r) as [ps|] eqn:Er; [|rewrite nth_error_nil; discriminate]. intros Hco H.
  eapply C53_counted_once; [exact Hco|eapply nth_error_In, Er|eapply nth_error_In, H].
Qed.

(** ** Aggregators *)
Definition win (r : nat) (s : sync) (b q : list event) : list (source * V) :=
  if per_collection (pref r) (cfg s) then expected (creations b) (s_key s) q else expected [] (s_key s) (b ++ q).
Definition before_win (r : nat) (s : sync) (b : list event) (pw : list (source * V)) : Prop :=
  (b = [] /\ pw = []) \/ exists b1 q1 o, b = b1 ++ q1 ++ [Collect r o] /\ cut_at r b1 q1 /\ pw = win r s b1 (q1 ++ [Collect r o]).
Definition cell_ok (r : nat) (s : sync) (c : inst) (w pw : list (source * V)) : Prop :=
  i_nm c = s_name s /\ i_ds c = s_desc s /\ i_un c = s_unit s /\ a_num (i_ag c) = k_num (s_key s) /\ a_shape (i_ag c) = shape_of (s_impl s) /\
  a_temp (i_ag c) = built_temporality (k_kind (s_key s)) (s_impl s) (pref r) /\
  store_ok (a_st (i_ag c)) (k_num (s_key s)) (s_impl s) (s_keys s) (s_limit s) (per_collection (pref r) (cfg s)) w pw.
Lemma temp_delta r (s : sync) : match built_temporality (k_kind (s_key s)) (s_impl s) (pref r) with Delta => true | _ => false end = per_collection (pref r) (cfg s).
Proof.
  unfold built_temporality, per_collection, temporality_preference. cbn [c_impl c_key cfg].
  destruct (s_impl s) as [[]| | | |]; try reflexivity; destruct (pref r), (k_kind (s_key s)); reflexivity.
Qed.
Lemma cell_ok_cfg r (s s' : sync) c w pw : cfg s = cfg s' -> cell_ok r s c w pw -> cell_ok r s' c w pw.
Proof.
  intros E. destruct s, s'. unfold cfg in E. cbn in E. injection E as -> -> -> -> -> -> ->. exact (fun H => H).
Qed.
Lemma cell_ok_many r s l : forall c w pw, cell_ok r s c w pw -> cell_ok r s (fold_left inst_measure l c) (w ++ l) pw.
Proof.
  induction l as [|x l IH]; intros c w pw H; cbn [fold_left]; [rewrite app_nil_r; exact H|].
  replace (w ++ x :: l) with ((w ++ [x]) ++ l) by now rewrite <- app_assoc. apply IH.
  destruct H as (H1 & H2 & H3 & H4 & H5 & H6 & H7). unfold EndModel.inst_measure. unfold cell_ok. cbn. repeat (split; [assumption|]). apply store_ok_one, H7.
Qed.
Lemma win_snoc r s b q e : win r s b (q ++ [e]) = win r s b q ++ received (creations (b ++ q)) (s_key s) e.
Proof.
  unfold win. destruct (per_collection _ _).
  - rewrite expected_snoc. unfold creations. rewrite flat_map_app. reflexivity.
  - rewrite app_assoc, expected_snoc. reflexivity.
Qed.
Lemma expected_app k l2 : forall l1 c, expected c k (l1 ++ l2) = expected c k l1 ++ expected (c ++ creations l1) k l2.
Proof.
  induction l1 as [|x l1 IH]; intros c; cbn [app PipelineProps.expected creations flat_map]; [now rewrite app_nil_r|]. rewrite IH, <- !app_assoc. reflexivity.
Qed.
Lemma win_nil r s b q : expected [] (s_key s) (b ++ q) = [] -> win r s b q = [].
Proof.
  intros H. unfold win. destruct (per_collection _ _); [|exact H]. rewrite expected_app in H. apply app_eq_nil in H. exact (proj2 H).
Qed.

Lemma cut_exists r (es : list event) : exists b q, es = b ++ q /\ cut_at r b q.
Proof.
  induction es as [|e es IH] using rev_ind; [exists [], []; repeat split; auto|]. destruct IH as (b & q & -> & Hb & Hq).
  assert (D : (exists o, e = Collect r o) \/ forall o, e <> Collect r o).
  { destruct e as [a|h v|r' o]; [right; discriminate..|]. destruct (Nat.eq_dec r' r) as [->|Hn]; [left; eauto|right; congruence]. }
  destruct D as [(o & ->)|D].
  - exists ((b ++ q) ++ [Collect r o]), []. rewrite app_nil_r. split; [reflexivity|]. split; [right; eauto|intros ? []].
  - exists b, (q ++ [e]). rewrite app_assoc. split; [reflexivity|]. split; [exact Hb|]. intros o Ho. apply in_app_or in Ho. destruct Ho as [Ho|[Ho|[]]]; [exact (Hq o Ho)|exact (D o Ho)].
Qed.
Lemma before_win_exists r s b q : cut_at r b q -> exists pw, before_win r s b pw /\ (expected [] (s_key s) b = [] -> pw = []).
Proof.
  intros [[->|(b' & o & ->)] _]; [exists []; split; [left; auto|auto]|].
  destruct (cut_exists r b') as (b1 & q1 & -> & Hc). exists (win r s b1 (q1 ++ [Collect r o])). split.
  - right. exists b1, q1, o. rewrite app_assoc. auto.
  - intros H. apply win_nil. rewrite app_assoc. exact H.
Qed.
Lemma before_win_cfg r (s s' : sync) b pw : cfg s = cfg s' -> before_win r s b pw -> before_win r s' b pw.
Proof.
  intros E. assert (W : forall b q, win r s b q = win r s' b q).
  { intros b' q'. unfold win. rewrite E. assert (Ek : s_key s = s_key s') by (apply (f_equal c_key) in E; exact E). rewrite Ek. reflexivity. }
  intros [H|(b1 & q1 & o & -> & Hc & ->)]; [left; exact H|right]. exists b1, q1, o. rewrite W. auto.
Qed.
Definition reader_ok (r : nat) (ss : list sync) (cells : list inst) (b q : list event) : Prop :=
  length cells = length ss /\ forall j s c, nth_error ss j = Some s -> nth_error cells j = Some c -> exists pw, before_win r s b pw /\ cell_ok r s c (win r s b q) pw.
Lemma absorb_ok n r clock e b q cells : cut_at r b q -> let es := b ++ q in Forall (coherent views) (creations (es ++ [e])) ->
  reader_ok r (syncs r (mrun n es)) cells b q ->
  reader_ok r (syncs r (mrun n (es ++ [e]))) (absorb r clock (syncs r (mrun n es)) (syncs r (mrun n (es ++ [e]))) cells) b (q ++ [e]).
Proof.
  intros Hcut es Hco [Hl H]. split.
  { unfold EndModel.absorb. rewrite map_length, combine_length, seq_length. lia. }
  intros j s c Hs Hc. unfold EndModel.absorb in Hc. rewrite nth_error_map, nth_combine_seq, Hs in Hc. cbn in Hc. injection Hc as <-.
  assert (Hco0 : Forall (coherent views) (creations es)) by (unfold creations in *; rewrite flat_map_app in Hco; apply Forall_app in Hco; apply Hco).
  pose proof (log_of n _ _ _ _ Hco Hs) as L1. rewrite expected_snoc in L1. cbn [app] in L1.
  pose proof Hs as Hs'. rewrite mrun_snoc in Hs'. destruct (step_syncs _ _ _ _ _ _ Hs') as [(s0 & Hs0 & Ec)|[Hs0 El]].
  - rewrite Hs0. pose proof (log_of n _ _ _ _ Hco0 Hs0) as L0. assert (Ek : s_key s0 = s_key s) by (apply (f_equal c_key) in Ec; exact Ec). rewrite Ek in L0. rewrite <- L0 in L1.
    rewrite L1, skipn_app, skipn_all, Nat.sub_diag. cbn [app skipn]. rewrite win_snoc.
    destruct (nth_error cells j) as [c|] eqn:Ec'.
    + destruct (H j s0 c Hs0 Ec') as (pw & B & Hpw). exists pw. split; [exact (before_win_cfg r s0 s b pw Ec B)|]. apply cell_ok_many. apply (cell_ok_cfg r s0); [exact Ec|]. replace (win r s b q) with (win r s0 b q) by (unfold win; rewrite Ek, Ec; reflexivity). exact Hpw.
    + exfalso. apply nth_error_None in Ec'. rewrite Hl in Ec'. apply nth_error_None in Ec'. congruence.
  - rewrite Hs0, El. cbn [fold_left skipn]. rewrite El in L1. symmetry in L1. apply app_eq_nil in L1. destruct L1 as [L1 L2].
    rewrite win_snoc. fold es. rewrite L2, app_nil_r, (win_nil r s b q L1).
    destruct (nth_error cells j) as [c|] eqn:Ec'.
    + exfalso. apply nth_error_None in Hs0. rewrite <- Hl in Hs0. apply nth_error_None in Hs0. congruence.
    + destruct (before_win_exists r s b q Hcut) as (pw & B & Bn). exists pw. split; [exact B|]. rewrite Bn.
      * repeat (split; [reflexivity|]). cbn. apply store_ok_new.
      * unfold es in L1. rewrite expected_app in L1. apply app_eq_nil in L1. apply L1.
Qed.

(** ** A collection *)
Notation members := (members (A := A) (T := T) (Nv := Nv) sc_dec).
Notation groups := (groups (A := A) (T := T) (Nv := Nv) sc_dec scope_order).
Notation after := (after (T := T) store_reset).
Lemma numbered_nth (ss : list sync) (cells : list inst) j s c : length cells = length ss ->
  In (j, (s, c)) (numbered ss cells) <-> nth_error ss j = Some s /\ nth_error cells j = Some c.
Proof.
  intros Hl. unfold numbered. assert (El : length ss = length (combine ss cells)) by (rewrite combine_length; lia). rewrite El.
  assert (N : forall i, nth_error (combine (seq 0 (length (combine ss cells))) (combine ss cells)) i = option_map (pair i) (nth_error (combine ss cells) i))
    by (intros i; apply nth_combine_seq).
  split.
  - intros H. apply In_nth_error in H. destruct H as (i & H). rewrite N, nth_combine in H.
    destruct (nth_error ss i) eqn:E1; [|discriminate]. destruct (nth_error cells i) eqn:E2; [|discriminate]. cbn in H. injection H as -> -> ->. auto.
  - intros [E1 E2]. apply (nth_error_In _ j). rewrite N, nth_combine, E1, E2. reflexivity.
Qed.
Lemma in_groups clock ss cells j s c : length cells = length ss -> nth_error ss j = Some s -> nth_error cells j = Some c ->
  In (j, (c, clock j)) (flat_map snd (groups clock (numbered ss cells))).
Proof.
  intros Hl Hs Hc. apply in_flat_map. exists (k_scope (s_key s), members clock (numbered ss cells) (k_scope (s_key s))). split.
  - unfold EndModel.groups. apply in_map_iff. exists (k_scope (s_key s)). split; [reflexivity|]. apply Hsc. apply in_map_iff. exists (j, (s, c)). split; [reflexivity|].
    apply numbered_nth; auto.
  - cbn [snd]. unfold EndModel.members. apply in_flat_map. exists (j, (s, c)). split; [apply numbered_nth; auto|]. destruct (sc_dec _ _); [left; reflexivity|congruence].
Qed.
Lemma groups_in clock ss cells j c t : length cells = length ss -> In (j, (c, t)) (flat_map snd (groups clock (numbered ss cells))) ->
  nth_error cells j = Some c /\ t = clock j.
Proof.
  intros Hl H. apply in_flat_map in H. destruct H as ([sc l] & H1 & H2). cbn [snd] in H2. unfold EndModel.groups in H1. apply in_map_iff in H1. destruct H1 as (sc' & E & _). injection E as -> <-.
  unfold EndModel.members in H2. apply in_flat_map in H2. destruct H2 as ([i [s c']] & H1 & H2). destruct (sc_dec _ _); [|destruct H2]. destruct H2 as [E|[]]. injection E as -> -> <-.
  apply numbered_nth in H1; [|exact Hl]. split; [apply H1|reflexivity].
Qed.
Lemma assoc_in {X Y} (f : X -> Y) (g : nat -> Y) j (l : list (nat * X)) : (forall x, In (j, x) l -> f x = g j) -> (exists x, In (j, x) l) ->
  assoc j (combine (map fst l) (map f (map snd l))) = Some (g j).
Proof.
  induction l as [|[i x] l IH]; intros H (y & Hy); [destruct Hy|]. cbn. destruct (Nat.eqb_spec i j) as [->|Hne]; [f_equal; apply H; left; reflexivity|].
  apply IH; [intros z Hz; apply H; right; exact Hz|]. destruct Hy as [E|Hy]; [injection E as -> _; contradiction|eauto].
Qed.
Lemma write_back_nth clock ss cells j s c : length cells = length ss -> nth_error ss j = Some s -> nth_error cells j = Some c ->
  nth_error (write_back (groups clock (numbered ss cells))
    (map (fun '(sc, is) => (sc, map (fun '(i, now) => after i now) is)) (map (fun g => (fst g, map snd (snd g))) (groups clock (numbered ss cells)))) cells) j
  = Some (after c (clock j)).
Proof.
  intros Hl Hs Hc. unfold write_back. rewrite nth_error_map, nth_combine_seq, Hc. cbn [option_map Nat.add].
  set (gs := groups clock (numbered ss cells)).
  assert (E1 : flat_map (fun g => map fst (snd g)) gs = map fst (flat_map snd gs)).
  { generalize gs. intros l. induction l as [|g l IH]; [reflexivity|]. cbn. now rewrite IH, map_app. }
  assert (E2 : flat_map snd (map (fun '(sc, is) => (sc, map (fun '(i, now) => after i now) is)) (map (fun g => (fst g, map snd (snd g))) gs))
             = map (fun '(i, now) => after i now) (map snd (flat_map snd gs))).
  { generalize gs. intros l. induction l as [|g l IH]; [reflexivity|]. cbn. now rewrite IH, !map_app. }
  rewrite E1, E2. erewrite (assoc_in _ (fun j => match nth_error cells j with Some c => after c (clock j) | None => after c (clock j) end)).
  - rewrite Hc. reflexivity.
  - intros [c' t] Hin. destruct (groups_in _ _ _ _ _ _ Hl Hin) as [H1 ->]. rewrite H1. reflexivity.
  - exists (c, clock j). eapply in_groups; eauto.
Qed.
Lemma cell_ok_after r s c w pw now : cell_ok r s c w pw ->
  cell_ok r s (after c now) (if per_collection (pref r) (cfg s) then [] else w) w.
Proof.
  intros (H1 & H2 & H3 & H4 & H5 & H6 & H7). pose proof (temp_delta r s) as Hd. rewrite <- H6 in Hd. unfold cell_ok, ProduceProps.after. cbn [i_nm i_ds i_un i_ag].
  destruct (per_collection (pref r) (cfg s)); destruct (a_temp (i_ag c)) eqn:Et; try discriminate Hd; cbn [a_num a_shape a_temp a_st];
  repeat (split; [solve [assumption|congruence]|]); try (destruct H7 as (m & rep & E & Hm & _); exists m, rep; split; [exact E|split; [exact Hm|discriminate]]). eapply store_ok_reset, H7.
Qed.

Lemma cut_snoc r (es : list event) e b q : cut_at r b q -> b ++ q = es ++ [e] ->
  (exists o, e = Collect r o /\ b = es ++ [e] /\ q = []) \/ (exists q', q = q' ++ [e] /\ es = b ++ q' /\ cut_at r b q' /\ forall o, e <> Collect r o).
Proof.
  intros [Hb Hq] E. destruct q as [|x q0] using rev_ind; [|clear IHq0].
  - rewrite app_nil_r in E. destruct Hb as [->|(b' & o & ->)]; [destruct es; discriminate|]. apply app_inj_tail in E. destruct E as [-> <-]. left. eauto.
  - rewrite app_assoc in E. apply app_inj_tail in E. destruct E as [<- <-]. right. exists q0. split; [reflexivity|]. split; [reflexivity|].
    split; [split; [exact Hb|intros o Ho; apply (Hq o); apply in_or_app; left; exact Ho]|]. intros o ->. apply (Hq o). apply in_or_app. right. left. reflexivity.
Qed.
Definition eok (n : nat) (evs : list (@ev Vl A Nv T R)) (s : @endst Vl A Nv T) : Prop :=
  let es := map ev_event evs in
  e_ms s = mrun n es /\ length (e_cells s) = n /\
  forall r, r < n -> forall b q, es = b ++ q -> cut_at r b q -> reader_ok r (syncs r (mrun n es)) (nth r (e_cells s) []) b q.
(** The aggregators after the callbacks and before the collection. *)
Definition fed (s : @endst Vl A Nv T) (e : @ev Vl A Nv T R) : list (list inst) :=
  let ms' := mstep (e_ms s) (ev_event e) in
  map (fun r => absorb r (ev_clock e) (syncs r (e_ms s)) (syncs r ms') (nth r (e_cells s) [])) (seq 0 (length (ms_pipes ms'))).
Lemma fed_ok n evs s e : eok n evs s -> Forall (coherent views) (creations (map ev_event (evs ++ [e]))) ->
  let es := map ev_event evs in length (fed s e) = n /\
  forall r, r < n -> forall b q, es = b ++ q -> cut_at r b q -> reader_ok r (syncs r (mrun n (es ++ [ev_event e]))) (nth r (fed s e) []) b (q ++ [ev_event e]).
Proof.
  intros (Em & El & H) Hco es. unfold fed. rewrite Em. fold es. rewrite <- mrun_snoc, pipes_length. split; [rewrite map_length, seq_length; reflexivity|].
  intros r Hr b q Eq Hc. erewrite nth_indep with (d' := absorb r (ev_clock e) (syncs r (mrun n es)) (syncs r (mrun n (es ++ [ev_event e]))) (nth r (e_cells s) []))
    by (rewrite map_length, seq_length; exact Hr).
  rewrite (map_nth (fun r => absorb r (ev_clock e) (syncs r (mrun n es)) (syncs r (mrun n (es ++ [ev_event e]))) (nth r (e_cells s) []))  (seq 0 n) r r).
  rewrite seq_nth by exact Hr. cbn [Nat.add]. rewrite Eq. apply absorb_ok; [exact Hc|..].
  - rewrite map_app in Hco. cbn [map] in Hco. fold es in Hco. rewrite <- Eq. exact Hco.
  - rewrite <- Eq. exact (H r Hr b q Eq Hc).
Qed.
Lemma step_ok n evs s e : eok n evs s -> Forall (coherent views) (creations (map ev_event (evs ++ [e]))) -> eok n (evs ++ [e]) (fst (estep s e)).
Proof.
  intros H Hco. destruct (fed_ok n evs s e H Hco) as [Fl F]. destruct H as (Em & El & H). set (es := map ev_event evs) in *.
  assert (Ems : map ev_event (evs ++ [e]) = es ++ [ev_event e]) by (rewrite map_app; reflexivity).
  unfold eok. rewrite Ems. unfold EndModel.estep. fold (fed s e).
  assert (Hplain : (forall r o, ev_event e <> Collect r o) -> eok n (evs ++ [e]) (mk_end (mstep (e_ms s) (ev_event e)) (fed s e))).
  { intros Hne. unfold eok. rewrite Ems. cbn [e_ms e_cells]. split; [rewrite Em, mrun_snoc; reflexivity|]. split; [exact Fl|].
    intros r Hr b q Eq Hc. destruct (cut_snoc _ _ _ _ _ Hc (eq_sym Eq)) as [(o & Ee & _)|(q' & -> & Eq' & Hc' & _)]; [exfalso; exact (Hne r o Ee)|]. exact (F r Hr b q' Eq' Hc'). }
  unfold eok in Hplain. rewrite Ems in Hplain.
  destruct (ev_event e) as [a|h v|r0 o] eqn:Ee; [apply Hplain; discriminate..|]. clear Hplain.
  rewrite C56_reused_buffer. cbn [fst e_ms e_cells]. split; [rewrite Em, mrun_snoc; reflexivity|]. rewrite set_nth_length. split; [exact Fl|].
  intros r Hr b q Eq Hc. destruct (Nat.eq_dec r0 r) as [->|Hne].
  - destruct (cut_exists r es) as (b0 & q0 & Eq0 & Hc0). pose proof (F r Hr b0 q0 Eq0 Hc0) as [Gl G].
    destruct (cut_snoc _ _ _ _ _ Hc (eq_sym Eq)) as [(o' & _ & -> & ->)|(q' & _ & _ & _ & X)]; [|exfalso; exact (X o eq_refl)].
    assert (Emr : mstep (e_ms s) (Collect r o) = mrun n (es ++ [Collect r o])) by (rewrite Em, mrun_snoc; reflexivity). rewrite Emr.
    set (mine := nth r (fed s e) []) in *. set (ss := syncs r (mrun n (es ++ [Collect r o]))) in *.
    assert (En : forall (l : list (list inst)) x, r < length l -> nth r (set_nth r x l) [] = x).
    { clear. intros l. revert r. induction l as [|y l IH]; intros [|r] x L; cbn in *; try lia; [reflexivity|]. apply IH. lia. }
    rewrite En by (rewrite Fl; exact Hr). clear En. split; [unfold write_back; rewrite map_length, combine_length, seq_length; lia|].
    intros j sy c Hs Hcj. assert (Hm : exists c0, nth_error mine j = Some c0).
    { destruct (nth_error mine j) as [c0|] eqn:E; [eauto|]. exfalso. apply nth_error_None in E. rewrite Gl in E. apply nth_error_None in E. congruence. }
    destruct Hm as (c0 & Hm). rewrite (write_back_nth _ ss mine j sy c0 Gl Hs Hm) in Hcj. injection Hcj as <-.
    destruct (G j sy c0 Hs Hm) as (pw & B & HG). exists (win r sy b0 (q0 ++ [Collect r o])). split; [right; exists b0, q0, o; rewrite app_assoc, <- Eq0; auto|].
    pose proof (cell_ok_after r sy c0 _ _ (ev_clock e j) HG) as X. unfold win at 1. unfold win at 1 in X. destruct (per_collection (pref r) (cfg sy)); [exact X|].
    rewrite app_nil_r. rewrite app_assoc, <- Eq0 in X. exact X.
  - destruct (cut_snoc _ _ _ _ _ Hc (eq_sym Eq)) as [(o' & E & _)|(q' & -> & Eq' & Hc' & _)]; [congruence|].
    assert (En : forall (l : list (list inst)) x, nth r (set_nth r0 x l) [] = nth r l []).
    { clear -Hne. intros l. revert r r0 Hne. induction l as [|y l IH]; intros [|r] [|r0] Hne x; cbn; try reflexivity; [congruence|]. apply IH. congruence. }
    rewrite En. exact (F r Hr b q' Eq' Hc').
Qed.
Lemma run_ok n evs : Forall (coherent views) (creations (map ev_event evs)) -> eok n evs (erun n evs).
Proof.
  induction evs as [|e evs IH] using rev_ind; intros Hco.
  - split; [reflexivity|]. split; [apply repeat_length|]. cbn [map]. intros r Hr b q Eq Hc. unfold EndModel.syncs, PipelineModel.mrun, EndModel.erun, e_init, m_init. cbn [fold_left ms_pipes e_cells].
    assert (E : nth_error (repeat (mk_ps (KV := kv Vl) (V := V) (mk_pipe [] []) []) n) r = Some (mk_ps (mk_pipe [] []) [])).
    { clear -Hr. revert r Hr. induction n as [|n IHn]; intros [|r] Hr; cbn; try lia; [reflexivity|]. apply IHn. lia. }
    rewrite E. cbn [ps_pipe p_syncs]. split; [|intros [|j] s c X; discriminate X].
    clear -Hr. revert r Hr. induction n as [|n IHn]; intros [|r] Hr; cbn; try lia. apply IHn. lia.
  - unfold EndModel.erun. rewrite fold_left_app. cbn [fold_left]. apply step_ok; [|exact Hco]. apply IH.
    rewrite map_app in Hco. unfold creations in *. rewrite flat_map_app in Hco. apply Forall_app in Hco. apply Hco.
Qed.

(** ** Start times *)
Notation hist evs := (map (fun e : @ev Vl A Nv T R => (ev_event e, ev_clock e)) evs).
Notation streams_of := (@streams_of Vl Nv T sc_dec views).
Notation started := (@started Vl Nv T sc_dec views).
Lemma hist_events evs : map fst (hist evs) = map ev_event evs.
Proof. rewrite map_map. reflexivity. Qed.
Lemma syncs_streams n r h : r < n -> map cfg (syncs r (mrun n (map fst h))) = streams_of h.
Proof.
  intros Hr. unfold EndModel.syncs, EndSpec.streams_of. pose proof (pipes_length sc_dec views n (map fst h)) as Lp.
  destruct (nth_error (ms_pipes (mrun n (map fst h))) r) as [ps|] eqn:Er; [|exfalso; apply nth_error_None in Er; lia].
  destruct (C53_one_stream_per_identity (kv Vl) V sc_dec views n (map fst h)) as [_ X]. destruct (X ps (nth_error_In _ _ Er)) as [X1 _]. exact X1.
Qed.
Lemma streams_grow h e : exists l, streams_of (h ++ [e]) = streams_of h ++ l.
Proof. unfold EndSpec.streams_of. rewrite map_app. cbn [map]. rewrite requests_snoc, first_requests_app. eauto. Qed.
Lemma streams_nodup h : NoDup (streams_of h).
Proof. eapply NoDup_map_inv. apply first_requests_keys. Qed.
Lemma started_snoc p r h e j c t : started p r h j c t -> (per_collection p c = true -> forall o, fst e <> Collect r o) -> started p r (h ++ [e]) j c t.
Proof.
  intros (h1 & e1 & h2 & -> & -> & Hin & Hc) He. exists h1, e1, (h2 ++ [e]). rewrite <- app_assoc. split; [reflexivity|]. split; [reflexivity|]. split; [exact Hin|].
  destruct (per_collection p c); [|exact Hc]. destruct Hc as [H1 H2]. split; [exact H1|]. intros o. rewrite map_app, in_app_iff. intros [H|[H|[]]]; [exact (H2 o H)|exact (He eq_refl o H)].
Qed.
Lemma started_new p r h e j c : nth_error (streams_of (h ++ [e])) j = Some c -> nth_error (streams_of h) j = None -> started p r (h ++ [e]) j c (snd e j).
Proof.
  intros H1 H2. exists h, e, []. split; [reflexivity|]. split; [reflexivity|]. split; [eapply nth_error_In, H1|].
  assert (Hn : ~ In c (streams_of h)).
  { intros Hi. apply In_nth_error in Hi. destruct Hi as (i & Hi). destruct (streams_grow h e) as (l & El).
    assert (Hi' : nth_error (streams_of (h ++ [e])) i = Some c) by (rewrite El, nth_error_app1; [exact Hi|apply nth_error_Some; congruence]).
    assert (E : i = j). { eapply NoDup_nth_error; [apply streams_nodup|apply nth_error_Some; rewrite Hi'; discriminate|congruence]. } congruence. }
  destruct (per_collection p c); [split; [left; exact Hn|intros o []]|exact Hn].
Qed.
Lemma started_again p r h e j c o : per_collection p c = true -> In c (streams_of (h ++ [e])) -> fst e = Collect r o -> started p r (h ++ [e]) j c (snd e j).
Proof.
  intros Hp Hin He. exists h, e, []. split; [reflexivity|]. split; [reflexivity|]. split; [exact Hin|]. rewrite Hp. split; [eauto|intros ? []].
Qed.
Lemma measured_init l : forall c : inst, a_init (i_ag (fold_left inst_measure l c)) = a_init (i_ag c).
Proof. induction l as [|x l IH]; intros c; cbn [fold_left]; [reflexivity|]. rewrite IH. reflexivity. Qed.
Definition inits_ok (r : nat) (h : list (event * (nat -> T))) (cells : list inst) : Prop :=
  forall j k c, nth_error (streams_of h) j = Some k -> nth_error cells j = Some c -> started (pref r) r h j k (a_init (i_ag c)).
(** Before the collection, if the event is one, the stream's start is as before. *)
Definition started_before (r : nat) (h : list (event * (nat -> T))) e j k t : Prop :=
  started (pref r) r h j k t \/ (started (pref r) r (h ++ [e]) j k t /\ t = snd e j /\ nth_error (streams_of h) j = None).
Lemma absorb_inits n r (h : list (event * (nat -> T))) e cells : r < n -> length cells = length (syncs r (mrun n (map fst h))) -> inits_ok r h cells ->
  forall j k c, nth_error (streams_of (h ++ [e])) j = Some k ->
    nth_error (absorb r (snd e) (syncs r (mrun n (map fst h))) (syncs r (mrun n (map fst h ++ [fst e]))) cells) j = Some c -> started_before r h e j k (a_init (i_ag c)).
Proof.
  intros Hr Hl H j k c Hk Hc. pose proof (syncs_streams n r h Hr) as S0. pose proof (syncs_streams n r (h ++ [e]) Hr) as S1. rewrite map_app in S1. cbn [map] in S1.
  unfold EndModel.absorb in Hc. rewrite nth_error_map, nth_combine_seq in Hc. destruct (nth_error (syncs r (mrun n (map fst h ++ [fst e]))) j) as [s|] eqn:Es; [|discriminate].
  cbn in Hc. injection Hc as <-. rewrite measured_init. destruct (nth_error cells j) as [c|] eqn:Ec.
  - left. apply H; [|exact Ec]. destruct (nth_error (streams_of h) j) as [k'|] eqn:Ek.
    + destruct (streams_grow h e) as (l & El). rewrite El, nth_error_app1 in Hk by (apply nth_error_Some; congruence). congruence.
    + exfalso. rewrite <- S0 in Ek. apply nth_error_None in Ek. rewrite map_length, <- Hl in Ek. apply nth_error_None in Ek. congruence.
  - right. assert (En : nth_error (streams_of h) j = None).
    { rewrite <- S0. apply nth_error_None. rewrite map_length, <- Hl. apply nth_error_None. exact Ec. }
    split; [apply started_new; assumption|]. auto.
Qed.
Definition iok (n : nat) (evs : list (@ev Vl A Nv T R)) (s : @endst Vl A Nv T) : Prop :=
  forall r, r < n -> inits_ok r (hist evs) (nth r (e_cells s) []).
Lemma fed_nth n (evs : list (@ev Vl A Nv T R)) s (e : @ev Vl A Nv T R) r : e_ms s = mrun n (map ev_event evs) -> r < n ->
  nth r (fed s e) [] = absorb r (ev_clock e) (syncs r (mrun n (map ev_event evs))) (syncs r (mrun n (map ev_event evs ++ [ev_event e]))) (nth r (e_cells s) []).
Proof.
  intros Em Hr. unfold fed. rewrite Em, <- mrun_snoc, pipes_length.
  erewrite nth_indep by (rewrite map_length, seq_length; exact Hr).
  rewrite (map_nth (fun r => absorb r (ev_clock e) (syncs r (mrun n (map ev_event evs))) (syncs r (mrun n (map ev_event evs ++ [ev_event e]))) (nth r (e_cells s) [])) (seq 0 n) r r).
  rewrite seq_nth by exact Hr. reflexivity.
Qed.
Lemma fed_inits n (evs : list (@ev Vl A Nv T R)) s (e : @ev Vl A Nv T R) : eok n evs s -> iok n evs s -> forall r, r < n -> forall j k c,
  nth_error (streams_of (hist evs ++ [(ev_event e, ev_clock e)])) j = Some k -> nth_error (nth r (fed s e) []) j = Some c -> started_before r (hist evs) (ev_event e, ev_clock e) j k (a_init (i_ag c)).
Proof.
  intros (Em & El & H) HI r Hr j k c Hk Hc. rewrite (fed_nth n evs s e r Em Hr) in Hc.
  destruct (cut_exists r (map ev_event evs)) as (b & q & Eq & Hcut). destruct (H r Hr b q Eq Hcut) as [Hlen _].
  eapply (absorb_inits n r (hist evs)); [exact Hr| |exact (HI r Hr)|exact Hk|].
  - rewrite hist_events. exact Hlen.
  - cbn [fst snd]. rewrite hist_events. exact Hc.
Qed.
Lemma step_inits n evs s e : eok n evs s -> Forall (coherent views) (creations (map ev_event (evs ++ [e]))) -> iok n evs s -> iok n (evs ++ [e]) (fst (estep s e)).
Proof.
  intros Hok Hco HI. destruct (fed_ok n evs s e Hok Hco) as [Fl F]. pose proof (fed_inits n evs s e Hok HI) as FI. destruct Hok as (Em & El & _).
  intros r Hr j k c Hk. rewrite map_app in Hk |- *. cbn [map] in Hk |- *. set (h := hist evs) in *. set (e' := (ev_event e, ev_clock e)) in *.
  unfold EndModel.estep. fold (fed s e).
  assert (Hplain : (forall o, ev_event e <> Collect r o) -> nth_error (nth r (fed s e) []) j = Some c -> started (pref r) r (h ++ [e']) j k (a_init (i_ag c))).
  { intros Hne Hc. destruct (FI r Hr j k c Hk Hc) as [X|[X _]]; [|exact X]. apply started_snoc; [exact X|]. intros _ o. exact (Hne o). }
  destruct (ev_event e) as [a|hh v|r0 o] eqn:Ee; [apply Hplain; discriminate..|].
  rewrite C56_reused_buffer. cbn [fst e_cells]. destruct (Nat.eq_dec r0 r) as [->|Hne].
  - clear Hplain. destruct (cut_exists r (map ev_event evs)) as (b0 & q0 & Eq0 & Hc0). pose proof (F r Hr b0 q0 Eq0 Hc0) as [Gl G].
    assert (Emr : mstep (e_ms s) (Collect r o) = mrun n (map ev_event evs ++ [Collect r o])) by (rewrite Em, mrun_snoc; reflexivity). rewrite Emr.
    set (mine := nth r (fed s e) []) in *. set (ss := syncs r (mrun n (map ev_event evs ++ [Collect r o]))) in *.
    assert (En : forall (l : list (list inst)) x, r < length l -> nth r (set_nth r x l) [] = x).
    { clear. intros l. revert r. induction l as [|y l IH]; intros [|r] x L; cbn in *; try lia; [reflexivity|]. apply IH. lia. }
    rewrite En by (rewrite Fl; exact Hr). clear En.
    pose proof (syncs_streams n r (h ++ [e']) Hr) as S1. rewrite map_app in S1. cbn [map fst e'] in S1. unfold h in S1 at 1. rewrite hist_events in S1. fold ss in S1.
    intros Hcj. pose proof Hk as Hs. rewrite <- S1, nth_error_map in Hs. destruct (nth_error ss j) as [sy|] eqn:Es; [|discriminate]. cbn in Hs. injection Hs as Hs.
    assert (Hm : exists c0, nth_error mine j = Some c0).
    { destruct (nth_error mine j) as [c0|] eqn:E; [eauto|]. exfalso. apply nth_error_None in E. rewrite Gl in E. apply nth_error_None in E. congruence. }
    destruct Hm as (c0 & Hm). rewrite (write_back_nth _ ss mine j sy c0 Gl Es Hm) in Hcj. injection Hcj as <-.
    destruct (G j sy c0 Es Hm) as (_ & _ & _ & _ & _ & _ & _ & Ht & _). pose proof (temp_delta r sy) as Hd. rewrite <- Ht, Hs in Hd.
    pose proof (FI r Hr j k c0 Hk Hm) as X. unfold ProduceProps.after. cbn [i_ag]. destruct (per_collection (pref r) k) eqn:Ep; destruct (a_temp (i_ag c0)); try discriminate Hd; cbn [a_init].
    + apply (started_again _ _ _ e' _ _ o); [exact Ep|eapply nth_error_In, Hk|reflexivity].
    + destruct X as [X|[X _]]; [|exact X]. apply started_snoc; [exact X|]. rewrite Ep. discriminate.
    + destruct X as [X|[X _]]; [|exact X]. apply started_snoc; [exact X|]. rewrite Ep. discriminate.
  - assert (En : forall (l : list (list inst)) x, nth r (set_nth r0 x l) [] = nth r l []).
    { clear -Hne. intros l. revert r r0 Hne. induction l as [|y l IH]; intros [|r] [|r0] Hne x; cbn; try reflexivity; [congruence|]. apply IH. congruence. }
    rewrite En. apply Hplain. congruence.
Qed.
Lemma run_inits n evs : Forall (coherent views) (creations (map ev_event evs)) -> iok n evs (erun n evs).
Proof.
  induction evs as [|e evs IH] using rev_ind; intros Hco.
  - intros r Hr j k c Hk. cbn in Hk. rewrite nth_error_nil in Hk. discriminate.
  - assert (Hco0 : Forall (coherent views) (creations (map ev_event evs))) by (rewrite map_app in Hco; unfold creations in *; rewrite flat_map_app in Hco; apply Forall_app in Hco; apply Hco).
    unfold EndModel.erun. rewrite fold_left_app. cbn [fold_left]. apply step_inits; [apply run_ok, Hco0|exact Hco|apply IH, Hco0].
Qed.

(** ** What a collection hands out *)
Notation points := (ProduceProps.points_now (T := T) store_readonly store_reset).
Lemma numbered_cfg (ss : list sync) (cells : list inst) : length cells = length ss ->
  map (fun x => cfg (fst (snd x))) (numbered ss cells) = map cfg ss.
Proof.
  intros Hl. unfold numbered. generalize 0. revert cells Hl. induction ss as [|s ss IH]; intros [|c cells] Hl k; cbn in *; try lia; [reflexivity|]. f_equal. apply IH. lia.
Qed.
Definition of_key (k : @key (kv Vl)) (x : nat * (sync * inst)) : bool := if key_dec sc_dec (s_key (fst (snd x))) k then true else false.
Lemma find_own (l : list (nat * (sync * inst))) x : NoDup (map (fun x => s_key (fst (snd x))) l) -> In x l ->
  List.find (of_key (s_key (fst (snd x)))) l = Some x.
Proof.
  induction l as [|y l IH]; intros Hn Hin; [destruct Hin|]. cbn in Hn. inversion Hn as [|? ? N1 N2]; subst. cbn [List.find]. unfold of_key at 1. destruct (key_dec _ _ _) as [E|E].
  - destruct Hin as [->|Hin]; [reflexivity|]. exfalso. apply N1. rewrite E. apply in_map_iff. eauto.
  - destruct Hin as [->|Hin]; [congruence|auto].
Qed.
Lemma metric_eq r s c w pw start time : cell_ok r s c w pw -> start = a_init (i_ag c) ->
  ProduceModel.mk_metric (i_nm c) (i_ds c) (i_un c) (fresh_data store_readonly store_reset (i_ag c) time)
  = metric_of (A := A) (pref r) start time (cfg s) (points (i_ag c)).
Proof.
  intros (H1 & H2 & H3 & H4 & H5 & H6 & _) ->. pose proof (temp_delta r s) as Hd. rewrite <- H6 in Hd. unfold metric_of, fresh_data. cbn [c_name c_desc c_unit c_key c_impl cfg].
  rewrite H1, H2, H3, H4, H5, <- Hd. destruct (s_impl s); cbn [shape_of]; destruct (a_temp (i_ag c)); reflexivity.
Qed.

Lemma collect_report n (evs : list (@ev Vl A Nv T R)) r o clock buf b q : let e := mk_ev (Collect r o) clock buf in
  map ev_event evs = b ++ q -> cut_at r b q -> r < n -> Forall (coherent views) (creations (b ++ q)) ->
  let cs := first_requests sc_dec [] (requests views (b ++ q)) in
  exists rm (start time : config -> T) (pts : config -> list (attrs * A)), snd (estep (erun n evs) e) = Some rm /\ rm_resource rm = res /\
    (forall c, In c cs -> points_right sc_dec keq views canon (overflow_attrs yes) create update accepts sub (pref r) r b (q ++ [Collect r o]) c (pts c)) /\
    (forall j c, nth_error cs j = Some c -> time c = clock j /\ started (pref r) r (hist evs) j c (start c)) /\
    rm_scopes rm = report sc_dec (pref r) start time pts cs (scope_order (map scope_of cs)).
Proof.
  intros e Eb Hc Hr Hco0 cs. pose proof (run_ok n evs ltac:(rewrite Eb; exact Hco0)) as Hok. pose proof (run_inits n evs ltac:(rewrite Eb; exact Hco0)) as HI.
  assert (Hco : Forall (coherent views) (creations (map ev_event (evs ++ [e])))).
  { rewrite map_app, Eb. unfold creations in *. rewrite flat_map_app. cbn. rewrite app_nil_r. exact Hco0. }
  set (s := erun n evs) in *. pose proof (fed_inits n evs s e Hok HI r Hr) as FI. destruct (fed_ok n evs s e Hok Hco) as [Fl F]. specialize (F r Hr b q Eb Hc). cbn [ev_event e] in F. rewrite Eb in F.
  destruct Hok as (Em & _). rewrite Eb in Em. unfold EndModel.estep. fold (fed s e). cbn [ev_event e ev_clock ev_buf].
  rewrite C56_reused_buffer. cbn [snd]. rewrite Em, <- mrun_snoc.
  set (ss := syncs r (mrun n ((b ++ q) ++ [Collect r o]))) in *. set (mine := nth r (fed s e) []) in *. destruct F as [Gl G].
  set (l := numbered ss mine).
  assert (Ecs : map (fun x => cfg (fst (snd x))) l = cs).
  { unfold l. rewrite numbered_cfg by exact Gl. unfold ss, EndModel.syncs. pose proof (pipes_length sc_dec views n ((b ++ q) ++ [Collect r o])) as Lp.
    destruct (nth_error (ms_pipes (mrun n ((b ++ q) ++ [Collect r o]))) r) as [ps|] eqn:Er; [|exfalso; apply nth_error_None in Er; lia].
    destruct (C53_one_stream_per_identity (kv Vl) V sc_dec views n ((b ++ q) ++ [Collect r o])) as [_ X]. destruct (X ps (nth_error_In _ _ Er)) as [X1 _]. rewrite X1.
    unfold cs. f_equal. rewrite requests_snoc. cbn. apply app_nil_r. }
  assert (Hnd : NoDup (map (fun x => s_key (fst (snd x))) l)).
  { replace (map (fun x => s_key (fst (snd x))) l) with (map c_key cs) by (rewrite <- Ecs, map_map; reflexivity). apply first_requests_keys. }
  assert (Hin : forall j sy c, In (j, (sy, c)) l -> exists pw, before_win r sy b pw /\ cell_ok r sy c (win r sy b (q ++ [Collect r o])) pw).
  { intros j sy c Hl. apply numbered_nth in Hl; [|exact Gl]. destruct Hl. eauto. }
  set (own := fun c : config => List.find (of_key (c_key c)) l).
  set (pts := fun c => match own c with Some x => points (i_ag (snd (snd x))) | None => [] end).
  set (start := fun c => match own c with Some x => a_init (i_ag (snd (snd x))) | None => clock 0 end).
  set (time := fun c => match own c with Some x => clock (fst x) | None => clock 0 end).
  eexists. exists start, time, pts. split; [reflexivity|]. split; [reflexivity|]. cbn [rm_scopes]. split; [|split].
  - intros c Hcs. rewrite <- Ecs in Hcs. apply in_map_iff in Hcs. destruct Hcs as ([j [sy ce]] & <- & Hl). cbn [fst snd] in *.
    unfold pts, own. cbn [c_key cfg]. pose proof (find_own l _ Hnd Hl) as Ef. cbn [fst snd] in Ef. rewrite Ef. cbn [snd]. destruct (Hin _ _ _ Hl) as (pw & B & Hce).
    destruct Hce as (_ & _ & _ & _ & _ & Ht & Hst). pose proof (temp_delta r sy) as Hd. rewrite <- Ht in Hd.
    pose proof (store_ok_points (a_st (i_ag ce)) (cfg sy) _ _ _ Hst) as X. unfold points_right, differences. cbn [c_impl c_key c_limit cfg] in *.
    assert (Ep : points (i_ag ce) = if per_collection (pref r) (cfg sy) then fst (store_reset (a_st (i_ag ce))) else store_readonly (a_st (i_ag ce)))
      by (unfold ProduceProps.points_now; rewrite <- Hd; destruct (a_temp (i_ag ce)); reflexivity).
    rewrite Ep. assert (W : forall b q, taken (s_impl sy) (win r sy b q) = window_of sc_dec views accepts (pref r) b q (cfg sy)) by reflexivity.
    rewrite W in X. destruct (precomputed (cfg sy) && per_collection (pref r) (cfg sy)); [|exact X]. destruct X as (prev & now & X1 & X2 & X3).
    exists (taken (s_impl sy) pw), prev, now. split; [|auto].
    destruct B as [[-> ->]|(b1 & q1 & o1 & -> & Hc1 & ->)]; [left; auto|right; exists b1, q1, o1; auto].
  - intros j c Hj. assert (Hl : exists sy ce, In (j, (sy, ce)) l /\ c = cfg sy).
    { rewrite <- Ecs, nth_error_map in Hj. unfold l, numbered in Hj. assert (El : length ss = length (combine ss mine)) by (rewrite combine_length; lia). rewrite El, nth_combine_seq in Hj.
      destruct (nth_error (combine ss mine) j) as [[sy ce]|] eqn:E; [|discriminate]. cbn in Hj. injection Hj as <-. exists sy, ce. split; [|reflexivity].
      apply numbered_nth; [exact Gl|]. rewrite nth_combine in E. destruct (nth_error ss j), (nth_error mine j); try discriminate E. injection E as -> ->. auto. }
    destruct Hl as (sy & ce & Hl & ->). pose proof (find_own l _ Hnd Hl) as Ef. cbn [fst snd] in Ef. assert (Eown : own (cfg sy) = Some (j, (sy, ce))) by exact Ef.
    unfold time, start. rewrite Eown. cbn [fst snd]. split; [reflexivity|].
    apply numbered_nth in Hl; [|exact Gl]. destruct Hl as [_ Hm].
    assert (Es : streams_of (hist evs ++ [(Collect r o, clock)]) = streams_of (hist evs)).
    { unfold EndSpec.streams_of. rewrite map_app. cbn [map fst]. f_equal. rewrite requests_snoc. cbn. apply app_nil_r. }
    assert (Ehc : streams_of (hist evs) = cs) by (unfold EndSpec.streams_of; rewrite hist_events, Eb; reflexivity).
    destruct (FI j (cfg sy) ce) as [X|(_ & _ & X)]; [|exact Hm|exact X|].
    + cbn [ev_event ev_clock e]. rewrite Es, Ehc. exact Hj.
    + rewrite Ehc in X. congruence.
  - unfold fresh_scopes, report, EndModel.groups. rewrite map_map.
    assert (Esc : map (fun x : nat * (sync * inst) => k_scope (s_key (fst (snd x)))) l = map scope_of cs) by (rewrite <- Ecs, map_map; reflexivity).
    fold l. rewrite Esc. cbn [fst snd]. generalize (scope_order (map scope_of cs)). intros scs. induction scs as [|sc scs IH]; [reflexivity|]. cbn [map flat_map]. rewrite IH. f_equal.
    assert (Em' : fresh_metrics store_readonly store_reset (map snd (members clock l sc)) = scope_report sc_dec (pref r) start time pts cs sc).
    { unfold fresh_metrics, scope_report, EndModel.members. rewrite <- Ecs.
      assert (Hsub : forall x, In x l -> In x l) by auto. revert Hsub. generalize l at 1 3 4. intros l0. induction l0 as [|[j [sy ce]] l0 IHl]; intros Hsub; [reflexivity|].
      cbn [flat_map map]. rewrite map_app, flat_map_app, IHl by (intros x Hx; apply Hsub; right; exact Hx). f_equal.
      cbn [fst snd]. change (scope_of (cfg sy)) with (k_scope (s_key sy)). destruct (sc_dec (k_scope (s_key sy)) sc); [|reflexivity]. cbn [map flat_map snd]. rewrite app_nil_r.
      pose proof (Hsub _ (or_introl eq_refl)) as Hl. pose proof (find_own l _ Hnd Hl) as Ef. cbn [fst snd] in Ef.
      assert (Eown : own (cfg sy) = Some (j, (sy, ce))) by exact Ef.
      unfold pts at 1. rewrite Eown. cbn [snd fst]. destruct (points (i_ag ce)) as [|p ps] eqn:Epts; [reflexivity|].
      f_equal. destruct (Hin _ _ _ Hl) as (pw & _ & Hce). rewrite (metric_eq r sy ce _ _ (a_init (i_ag ce)) (clock j) Hce eq_refl). unfold start, time. rewrite Eown. cbn [fst snd]. rewrite Epts. reflexivity. }
    rewrite Em'. reflexivity.
Qed.
End endp.
