(** What a whole scrape of the Prometheus exporter holds (C148, C149). *)
From Coq Require Import String List NArith ZArith Bool Lia Permutation Sorted ZifyBool ZifyN.
From Verif Require Import Str StrProofs F64 AttrModel AttrProofs InstrModel InstrProps KvModel OtlpModel OtlpProps PromModel PromProps.
Import ListNotations.
Local Open Scope N_scope.

(** ** Specification *)
(** The info metric of the target: one gauge of value 1 with the resource's attributes,
    unless there is nothing to say or it is switched off. *)
Definition target_part (show : value -> str) (c : config) (res : list attr) (fs : list family) : Prop :=
  (disable_target_info c = true \/ res = [] -> fs = []) /\
  (disable_target_info c = false -> res <> [] -> exists f, fs = [f] /\
     f_name f = of_string "target_info" /\ f_help f = of_string "Target metadata" /\ f_type f = GAUGE /\
     f_labels f = get_attrs show res [] /\ f_value f = FGauge (f64_of_Z 1)).
(** The info metric of a scope that has attributes. *)
Definition scope_part (c : config) (sc : scope) (fs : list family) : Prop :=
  (disable_scope_info c = true \/ sc_attrs sc = [] -> fs = []) /\
  (disable_scope_info c = false -> sc_attrs sc <> [] -> exists f, fs = [f] /\
     f_name f = of_string "otel_scope_info" /\ f_help f = of_string "Instrumentation Scope metadata" /\ f_type f = GAUGE /\
     scope_labels sc (f_labels f) /\ f_value f = FGauge (f64_of_Z 1)).
(** The labels a scope's points get besides their own. *)
Definition common_labels (show : value -> str) (c : config) (res : list attr) (sc : scope) (extra : list (list N * list N)) : Prop :=
  if disable_scope_info c then extra = []
  else exists ls picked, scope_labels sc ls /\ picked = filter (fun kv => match selector c with
       | None => false | Some None => true | Some (Some keys) => existsb (str_eqb (fst kv)) keys end) res /\
     extra = ls ++ get_attrs show picked [].
(** The samples of one metric: all its points, or nothing. *)
Definition metric_part (alnum : char -> bool) (show : value -> str) (c : config) (extra : list (list N * list N)) (m : metric) (fs : list family) : Prop :=
  fs = [] \/ exists t n h, type_and_name alnum c m = Some (t, n) /\ List.length fs = apoints (me_data m) /\
    forall i, (i < apoints (me_data m))%nat -> exists labels t' v, nth_error fs i = Some (mk_fam n h t' labels v) /\ sample_of show extra (me_data m) i labels t' v.

(** A scrape is the target's info, then for each scope its info and the samples of its
    metrics, all in the order of collection, with the labels of that very scope. *)
Theorem C148_scrape : forall alnum show c res sms s fs s', collect alnum show c res sms s = Some (fs, s') ->
  exists target parts, fs = target ++ concat (map (fun p => fst p ++ concat (snd p)) parts) /\ target_part show c res target /\
    Forall2 (fun sm p => scope_part c (fst sm) (fst p) /\ exists extra, common_labels show c res (fst sm) extra /\
      Forall2 (metric_part alnum show c extra) (snd sm) (snd p)) sms parts.
Proof.
  intros alnum show c res sms s fs s' E. unfold collect in E.
  destruct (scopes_loop alnum show c (select show (selector c) res) sms s) as [[fs1 s1]|] eqn:E1; [|discriminate]. cbn [option_map fst snd] in E. injection E as <- <-.
  assert (H : exists parts, fs1 = concat (map (fun p => fst p ++ concat (snd p)) parts) /\
    Forall2 (fun sm p => scope_part c (fst sm) (fst p) /\ exists extra, common_labels show c res (fst sm) extra /\
      Forall2 (metric_part alnum show c extra) (snd sm) (snd p)) sms parts).
  { revert s fs1 s1 E1. induction sms as [|[sc ms] sms IH]; intros s fs1 s1 E1; cbn [scopes_loop] in E1.
    { injection E1 as <- <-. exists []. split; [reflexivity|constructor]. }
    cbv zeta in E1. set (extra := if disable_scope_info c then [] else scope_name_labels sc ++ select show (selector c) res) in E1.
    destruct (metrics_loop alnum show c extra ms s) as [[fs2 s2]|] eqn:E2; [|discriminate].
    destruct (scopes_loop alnum show c (select show (selector c) res) sms s2) as [[fs3 s3]|] eqn:E3; [|discriminate]. cbn [option_map fst snd] in E1. injection E1 as <- <-.
    destruct (IH _ _ _ E3) as (parts & -> & Hp).
    assert (Hm : exists l, fs2 = concat l /\ Forall2 (metric_part alnum show c extra) ms l).
    { clear - E2. revert s fs2 s2 E2. induction ms as [|m ms IHm]; intros s fs2 s2 E2; cbn [metrics_loop] in E2; [injection E2 as <- <-; exists []; split; [reflexivity|constructor]|].
      destruct (one_metric alnum show c extra m s) as [[fs4 s4]|] eqn:E4; [|discriminate]. destruct (metrics_loop alnum show c extra ms s4) as [[fs5 s5]|] eqn:E5; [|discriminate].
      cbn [option_map fst snd] in E2. injection E2 as <- <-. destruct (IHm _ _ _ E5) as (l & -> & Hl). exists (fs4 :: l). split; [reflexivity|]. constructor; [|exact Hl].
      unfold one_metric in E4. destruct (type_and_name alnum c m) as [[t n]|] eqn:Et; [|injection E4 as <- <-; left; reflexivity].
      destruct (validate n (me_desc m) t s) as [[[] h] s6]; [injection E4 as <- <-; left; reflexivity|].
      destruct (add_metric show n (match h with Some h => h | None => me_desc m end) extra (me_data m)) as [fs7|] eqn:Ea; [|discriminate]. cbn in E4. injection E4 as <- <-.
      destruct (C63_samples _ _ _ _ _ _ Ea) as [L1 L2]. right. exists t, n. eexists. split; [exact Et|]. split; [exact L1|exact L2]. }
    destruct Hm as (l & -> & Hl).
    exists ((if disable_scope_info c then [] else match sc_attrs sc with [] => [] | _ => [scope_info sc] end, l) :: parts).
    split; [cbn [map concat fst snd]; rewrite <- app_assoc; reflexivity|]. constructor; [|exact Hp]. cbn [fst snd]. split.
    - split.
      + intros [-> | ->]; [reflexivity|destruct (disable_scope_info c); reflexivity].
      + intros -> Ha. destruct (sc_attrs sc); [contradiction|]. eexists. split; [reflexivity|]. cbn. repeat (split; [reflexivity|]). split; [|reflexivity].
        unfold scope_labels, scope_name_labels. destruct (sc_version sc); reflexivity.
    - exists extra. split; [|exact Hl]. unfold common_labels, extra. destruct (disable_scope_info c); [reflexivity|].
      exists (scope_name_labels sc). eexists. split; [unfold scope_labels, scope_name_labels; destruct (sc_version sc); reflexivity|]. split; [reflexivity|]. f_equal.
      unfold select. destruct (selector c) as [[keys|]|]; [reflexivity| |].
      + f_equal. clear. induction res as [|x r IHr]; [reflexivity|]. cbn. f_equal. exact IHr.
      + clear. induction res; [reflexivity|exact IHres]. }
  destruct H as (parts & -> & Hp). eexists. exists parts. split; [reflexivity|]. split; [|exact Hp]. split.
  - intros [-> | ->]; [reflexivity|destruct (disable_target_info c); reflexivity].
  - intros -> Hr. destruct res; [contradiction|]. eexists. split; [reflexivity|]. repeat split; reflexivity.
Qed.
Print Assumptions C148_scrape.

(** ** C149: the attributes of a scope can be found in a scrape *)
Definition two_scopes (v : str) : list (scope * list metric) :=
  [(mk_scope (of_string "lib") None None [(of_string "shard", VString v)], [mk_metric (of_string "up") [] [] (DU64 (MGauge [mk_np [] 1%Z []] None 0%Z))])].
Theorem C149_scope_attributes_refuted : ~ (forall alnum show c res sms1 sms2 s fs s1 s2, disable_scope_info c = false ->
  collect alnum show c res sms1 s = Some (fs, s1) -> collect alnum show c res sms2 s = Some (fs, s2) ->
  map (fun sm => sc_attrs (fst sm)) sms1 = map (fun sm => sc_attrs (fst sm)) sms2).
Proof.
  intros H. specialize (H is_alnum (fun v => match v with VString s => s | _ => [] end) (mk_cfg false false false false None None) [] (two_scopes [49]) (two_scopes [50]) []).
  specialize (H _ _ _ eq_refl eq_refl eq_refl). discriminate.
Qed.
Print Assumptions C149_scope_attributes_refuted.
(** Two scopes that differ only in their attributes give the same series twice. *)
Theorem C149_scope_info_once_refuted : ~ (forall alnum show c res sms s fs s' i j f, disable_scope_info c = false -> NoDup (map fst sms) ->
  collect alnum show c res sms s = Some (fs, s') -> nth_error fs i = Some f -> nth_error fs j = Some f -> f_name f = of_string "otel_scope_info" -> i = j).
Proof.
  intros H. assert (0 = 1)%nat; [|discriminate].
  eapply (H is_alnum (fun v => match v with VString s => s | _ => [] end) (mk_cfg false false false false None None) []
    (map (fun sm => (fst sm, [])) (two_scopes [49] ++ two_scopes [50])) []); try reflexivity.
  cbn. constructor; [intros [X|[]]; discriminate|constructor; [intros []|constructor]].
Qed.
Print Assumptions C149_scope_info_once_refuted.

Example C148_nonvacuous :
  let show v := match v with VString s => s | _ => [] end in
  option_map (fun r => map (fun f => (f_name f, f_labels f)) (fst r))
    (collect is_alnum show (mk_cfg false false false false None (Some None)) [(of_string "service.name", VString (of_string "a"))] (two_scopes [49]) []) =
  Some [(of_string "target_info", [(of_string "service_name", of_string "a")]);
        (of_string "otel_scope_info", [(of_string "otel_scope_name", of_string "lib")]);
        (of_string "up", [(of_string "otel_scope_name", of_string "lib"); (of_string "service_name", of_string "a")])].
Proof. vm_compute. reflexivity. Qed.
