(** C54, C55: instrument names and units, and views. *)
From Coq Require Import List Bool Arith NArith ZArith Lia Lra String Reals Sorted.
From Verif Require Import Str StrProofs F64 F64Proofs HistModel HistProps InstrModel.
Import ListNotations.
Local Open Scope N_scope.

(** ** C54 *)
Definition letter (c : N) : Prop := 65 <= c <= 90 \/ 97 <= c <= 122.
Definition name_char (c : N) : Prop := letter c \/ 48 <= c <= 57 \/ c = 95 \/ c = 46 \/ c = 45 \/ c = 47.
Definition name_grammar (s : list N) : Prop :=
  exists c r, s = c :: r /\ letter c /\ Forall name_char r /\ (List.length s <= 255)%nat.
Definition unit_grammar (u : option (list N)) : Prop :=
  forall s, u = Some s -> Forall (fun c => c < 128) s /\ (List.length s <= 63)%nat.
Definition boundaries_grammar (b : list f64) : Prop :=
  (forall x, In x b -> f64_is_finite x = true) /\
  (forall i x y, nth_error b i = Some x -> nth_error b (S i) = Some y -> (f64R x < f64R y)%R).

Lemma blen_ascii s : Forall (fun c => c < 128) s -> blen s = N.of_nat (List.length s).
Proof.
  intros H. unfold blen. rewrite utf8_ascii; [reflexivity|].
  apply forallb_forall. intros x Hx. apply N.ltb_lt. rewrite Forall_forall in H. now apply H.
Qed.
Lemma is_alpha_spec c : is_alpha c = true <-> letter c.
Proof. unfold is_alpha, is_upper, is_lower, between, letter. rewrite orb_true_iff, !andb_true_iff, !N.leb_le. tauto. Qed.
Lemma bad_name_char c : negb (is_alnum c) && negb (existsb (N.eqb c) name_punct) = false <-> name_char c.
Proof.
  rewrite andb_false_iff, !negb_false_iff. unfold is_alnum, is_digit, between, name_char.
  rewrite orb_true_iff, is_alpha_spec, andb_true_iff, !N.leb_le. cbn [existsb name_punct].
  rewrite !orb_true_iff, !N.eqb_eq. intuition congruence.
Qed.
Lemma existsb_false {X} (f : X -> bool) l : negb (existsb f l) = true <-> Forall (fun x => f x = false) l.
Proof.
  induction l as [|a l IH]; cbn [existsb]; [split; intros; constructor || reflexivity|].
  rewrite negb_orb, andb_true_iff, IH, negb_true_iff. split.
  - intros [A B]. now constructor.
  - intros H. inversion H; subst. auto.
Qed.
Lemma Forall_iff {X} (P Q : X -> Prop) l : (forall x, P x <-> Q x) -> (Forall P l <-> Forall Q l).
Proof. intros H. split; apply Forall_impl; intros x Hx; now apply H. Qed.
Lemma name_char_ascii c : name_char c -> c < 128.
Proof. unfold name_char, letter. lia. Qed.
Lemma validate_name_spec s : validate_name s = true <-> name_grammar s.
Proof.
  unfold validate_name, name_grammar. destruct s as [|c r]; [split; [discriminate|intros (c & r & E & _); discriminate]|].
  rewrite !andb_true_iff, existsb_false, negb_true_iff, N.ltb_ge, is_alpha_spec, (Forall_iff _ _ _ bad_name_char).
  split.
  - intros [[L A] F]. exists c, r. split; [reflexivity|]. split; [exact A|]. split; [now inversion F|].
    rewrite blen_ascii in L; [lia|]. eapply Forall_impl; [|exact F]. exact name_char_ascii.
  - intros (c' & r' & E & A & F & L). injection E as <- <-.
    assert (F' : Forall name_char (c :: r)) by (constructor; [left; exact A|exact F]).
    split; [split; [|exact A]|exact F'].
    rewrite blen_ascii; [lia|]. eapply Forall_impl; [|exact F']. exact name_char_ascii.
Qed.
Lemma validate_unit_spec u : validate_unit u = true <-> unit_grammar u.
Proof.
  unfold validate_unit, unit_grammar. destruct u as [u|]; [|split; [discriminate|reflexivity]].
  rewrite andb_true_iff, existsb_false, negb_true_iff, N.ltb_ge.
  rewrite (Forall_iff _ (fun c => c < 128)); [|intros x; unfold is_ascii; rewrite negb_false_iff; apply N.ltb_lt].
  split.
  - intros [L F] s E. injection E as <-. split; [exact F|]. rewrite blen_ascii in L by exact F. lia.
  - intros H. destruct (H u eq_refl) as [F L]. split; [|exact F]. rewrite blen_ascii by exact F. lia.
Qed.
Lemma bounds_valid_spec b : bounds_valid b = true <-> boundaries_grammar b.
Proof.
  split.
  - intros H. destruct (C47_validated_boundaries b H) as (_ & _ & Hf & Hs). split; [exact Hf|].
    clear H Hf. induction Hs as [|x l Hs IH F]; intros i a c Ha Hc; [destruct i; discriminate|].
    destruct i as [|i]; cbn in Ha, Hc; [injection Ha as <-|exact (IH i a c Ha Hc)].
    rewrite Forall_forall in F. apply F. destruct l; [discriminate|]. injection Hc as <-. left. reflexivity.
  - intros [Hf Hs]. unfold bounds_valid. apply andb_true_iff. split.
    + apply forallb_forall. intros x Hx. specialize (Hf x Hx). unfold f64_is_inf. rewrite Hf.
      rewrite (fin_not_nan x Hf). reflexivity.
    + induction b as [|x b IH]; [reflexivity|]. destruct b as [|y b]; [reflexivity|].
      change (negb (f64_leb y x) && increasing (y :: b) = true). apply andb_true_iff. split.
      * specialize (Hs 0%nat x y eq_refl eq_refl). apply negb_true_iff.
        destruct (f64_leb y x) eqn:E; [|reflexivity].
        apply leb_fin in E; [lra|apply Hf; right; left; reflexivity|apply Hf; left; reflexivity].
      * apply IH; [intros z Hz; apply Hf; right; exact Hz|]. intros i a c Ha Hc. exact (Hs (S i) a c Ha Hc).
Qed.

(** An instrument passes validation exactly when name, unit and (for a histogram)
    boundaries follow the grammar.  The limits count characters although the code
    counts bytes. *)
Theorem C54_accepted_iff_grammar : forall k name unit boundaries,
  create_ok k name unit boundaries = true <->
  name_grammar name /\ unit_grammar unit /\
  (k = KHistogram -> forall b, boundaries = Some b -> boundaries_grammar b).
Proof.
  intros k name unit boundaries. unfold create_ok, validate_config.
  rewrite !andb_true_iff, validate_name_spec, validate_unit_spec.
  assert (H : match k, boundaries with KHistogram, Some b => bounds_valid b | _, _ => true end = true <->
              (k = KHistogram -> forall b, boundaries = Some b -> boundaries_grammar b)).
  { destruct k; try (split; [discriminate|reflexivity]). destruct boundaries as [b|]; [|split; [discriminate|reflexivity]].
    rewrite bounds_valid_spec. split; [intros H _ b' E; injection E as <-; exact H|intros H; exact (H eq_refl b eq_refl)]. }
  rewrite H. tauto.
Qed.
Print Assumptions C54_accepted_iff_grammar.
Example C54_nonvacuous :
  create_ok KCounter (of_string "http.server/active_requests-2") (Some (of_string "{request}")) None = true /\
  create_ok KCounter [] None None = false /\
  create_ok KCounter (of_string "1a") None None = false /\
  create_ok KCounter (of_string "a b") None None = false /\
  create_ok KCounter (233 :: of_string "a") None None = false /\
  create_ok KCounter (repeat 97 255) None None = true /\
  create_ok KCounter (repeat 97 256) None None = false /\
  create_ok KCounter (of_string "a") (Some (repeat 97 63)) None = true /\
  create_ok KCounter (of_string "a") (Some (repeat 97 64)) None = false /\
  create_ok KHistogram (of_string "a") None (Some [f64_of_Z 1; f64_of_Z 2]) = true /\
  create_ok KHistogram (of_string "a") None (Some [f64_of_Z 1; f64_of_Z 1]) = false.
Proof. vm_compute. repeat split. Qed.

(** ** C55 *)

(** What a name pattern means: [?] is one character, [*] any number. *)
Inductive wild : list N -> list N -> Prop :=
| W_nil : wild [] []
| W_any p c s : wild p s -> wild (63 :: p) (c :: s)
| W_seq p a s : wild p s -> wild (42 :: p) (a ++ s)
| W_lit c p s : c <> 63 -> c <> 42 -> wild p s -> wild (c :: p) (c :: s).
(** Patterns without the glob crate's further notations. *)
Definition plain (p : list N) : Prop := ~ In 91 p /\ forall a b, p <> a ++ 42 :: 42 :: b.

Definition tok (c : N) : token := if c =? 63 then TAny else if c =? 42 then TSeq else TChar c.
Lemma plain_tail c p : plain (c :: p) -> plain p.
Proof. intros [A B]. split; [intros H; apply A; right; exact H|]. intros a b E. apply (B (c :: a) b). cbn. now rewrite E. Qed.
Lemma tokenise_plain p : plain p -> forall fuel prev toks, (List.length p < fuel)%nat ->
  tokenise fuel prev toks p = Some (rev toks ++ map tok p).
Proof.
  induction p as [|c p IH]; intros Hp fuel prev toks Hf; (destruct fuel as [|fuel]; [lia|]).
  - cbn. now rewrite app_nil_r.
  - specialize (IH (plain_tail _ _ Hp)). cbn [List.length] in Hf.
    assert (Hlen : (List.length p < fuel)%nat) by lia. cbn [tokenise map]. unfold tok at 1.
    unfold c_quest, c_star, c_open. destruct (c =? 63) eqn:E1.
    { rewrite IH by exact Hlen. cbn [rev]. now rewrite <- app_assoc. }
    destruct (c =? 42) eqn:E2.
    { assert (Hs : stars (c :: p) = 1%nat).
      { cbn [stars]. unfold c_star. rewrite E2. f_equal. destruct p as [|d p]; [reflexivity|]. cbn [stars]. unfold c_star.
        destruct (d =? 42) eqn:E3; [|reflexivity]. apply N.eqb_eq in E2, E3. subst. destruct Hp as [_ Hp]. now specialize (Hp [] p). }
      rewrite Hs, IH by exact Hlen. cbn [rev]. now rewrite <- app_assoc. }
    destruct (c =? 91) eqn:E3.
    { apply N.eqb_eq in E3. subst. destruct Hp as [Hp _]. exfalso. apply Hp. left. reflexivity. }
    rewrite IH by exact Hlen. cbn [rev]. now rewrite <- app_assoc.
Qed.

(** The matcher's early exit is sound: [MEntire] rules out every later start. *)
Definition go_seq (toks : list token) : list N -> mresult :=
  fix go (s : list N) : mresult :=
    match matches_from toks s with
    | MSub => match s with _ :: s' => go s' | [] => matches_from toks [] end
    | m => m
    end.
Lemma seq_unfold toks s : matches_from (TSeq :: toks) s = go_seq toks s.
Proof. reflexivity. Qed.
Lemma wild_star p s : wild (42 :: p) s <-> exists a b, s = a ++ b /\ wild p b.
Proof.
  split.
  - intros H. inversion H; subst; [eauto|congruence].
  - intros (a & b & -> & H). now constructor.
Qed.
Lemma match_wild p : forall s,
  (matches_from (map tok p) s = MMatch <-> wild p s) /\
  (matches_from (map tok p) s = MEntire -> forall a b, s = a ++ b -> ~ wild p b).
Proof.
  induction p as [|c p IH]; intros s.
  - cbn [map matches_from]. destruct s as [|x s]; split; try (split; [|reflexivity]); try discriminate.
    + intros _. constructor.
    + split; [discriminate|]. intros H. inversion H.
  - cbn [map]. unfold tok at 1 3. destruct (c =? 63) eqn:E1; [|destruct (c =? 42) eqn:E2].
    + apply N.eqb_eq in E1. subst c. cbn [matches_from]. destruct s as [|x s].
      * split; [split; [discriminate|intros H; inversion H; congruence]|].
        intros _ a b E H. symmetry in E. apply app_eq_nil in E. destruct E as [-> ->]. inversion H; congruence.
      * destruct (IH s) as [I1 I2]. split.
        -- rewrite I1. split; [intros H; now constructor|]. intros H. inversion H; subst; [assumption|congruence].
        -- intros M a b E H. inversion H; subst; [|congruence]. specialize (I2 M).
           destruct a as [|y a]; cbn in E; injection E as <- E; [subst s; exact (I2 [] _ eq_refl H1)|].
           apply (I2 (a ++ [c]) s0); [rewrite <- app_assoc; exact E|exact H1].
    + apply N.eqb_eq in E2. subst c. rewrite seq_unfold. induction s as [|x s IHs].
      * cbn [go_seq]. destruct (IH []) as [I1 I2].
        assert (Hst : wild (42 :: p) [] <-> wild p []).
        { rewrite wild_star. split; [intros (a & b & E & H); symmetry in E; apply app_eq_nil in E; destruct E as [-> ->]; exact H|].
          intros H. now exists [], []. }
        destruct (matches_from (map tok p) []) eqn:M.
        -- split; [rewrite Hst, I1; reflexivity|discriminate].
        -- split; [split; [discriminate|]; rewrite Hst; intros H; apply I1 in H; discriminate|]. discriminate.
        -- split; [split; [discriminate|]; rewrite Hst; intros H; apply I1 in H; discriminate|].
           intros _ a b E. symmetry in E. apply app_eq_nil in E. destruct E as [-> ->]. rewrite Hst. intros H. apply I1 in H. discriminate.
      * destruct (IH (x :: s)) as [I1 I2]. cbn [go_seq]. destruct (matches_from (map tok p) (x :: s)) eqn:M.
        -- split; [|discriminate]. split; [|reflexivity]. intros _. apply wild_star. exists [], (x :: s). split; [reflexivity|]. now apply I1.
        -- fold (go_seq (map tok p)). destruct IHs as [J1 J2]. split.
           ++ rewrite J1, !wild_star. split.
              ** intros (a & b & -> & H). exists (x :: a), b. split; [reflexivity|exact H].
              ** intros (a & b & E & H). destruct a as [|y a]; cbn in E.
                 --- subst b. apply I1 in H. discriminate.
                 --- injection E as <- ->. now exists a, b.
           ++ intros Me a b E H. destruct a as [|y a]; cbn in E.
              ** subst b. apply wild_star in H. destruct H as (a' & b' & E' & H).
                 destruct a' as [|z a']; cbn in E'; [subst b'; apply I1 in H; discriminate|]. injection E' as <- ->.
                 apply (J2 Me [] (a' ++ b') eq_refl). now constructor.
              ** injection E as <- ->. exact (J2 Me a b eq_refl H).
        -- split; [split; [discriminate|]|].
           ++ intros H. apply wild_star in H. destruct H as (a & b & E & H). exfalso. exact (I2 eq_refl a b E H).
           ++ intros _ a b E H. apply wild_star in H. destruct H as (a' & b' & -> & H).
              apply (I2 eq_refl (a ++ a') b'); [now rewrite <- app_assoc|exact H].
    + apply N.eqb_neq in E1, E2. cbn [matches_from]. destruct s as [|x s].
      * split; [split; [discriminate|intros H; inversion H; congruence]|].
        intros _ a b E H. symmetry in E. apply app_eq_nil in E. destruct E as [-> ->]. inversion H; congruence.
      * destruct (IH s) as [I1 I2]. destruct (x =? c) eqn:E3.
        -- apply N.eqb_eq in E3. subst x. split.
           ++ rewrite I1. split; [intros H; now constructor|]. intros H. inversion H; subst; try congruence.
           ++ intros M a b E H. inversion H; subst; try congruence. specialize (I2 M).
              destruct a as [|y a]; cbn in E.
              ** injection E as E. subst s. eapply (I2 [] _ eq_refl); eassumption.
              ** injection E as <- E. eapply (I2 (a ++ [c])); [rewrite <- app_assoc; exact E|eassumption].
        -- apply N.eqb_neq in E3. split; [split; [discriminate|intros H; inversion H; subst; congruence]|discriminate].
Qed.
(** A pattern of literal characters, [?] and single [*] is always accepted, and
    matches exactly the names its meaning says. *)
Theorem C55_wildcards : forall p, plain p ->
  exists t, pattern_new p = Some t /\ forall s, pattern_matches t s = true <-> wild p s.
Proof.
  intros p Hp. exists (map tok p). split.
  - unfold pattern_new. rewrite tokenise_plain; [reflexivity|exact Hp|lia].
  - intros s. destruct (match_wild p s) as [H _]. rewrite <- H. unfold pattern_matches.
    destruct (matches_from (map tok p) s); split; intros; congruence || reflexivity.
Qed.
Print Assumptions C55_wildcards.

(** Criteria: what is left empty matches anything. *)
Section c55.
Context {KV : Type}.
Definition any_or_eq (c v : list N) : Prop := c = [] \/ c = v.
Definition none_or_eq {X} (c v : option X) : Prop := c = None \/ c = v.
Definition name_criterion (c v : list N) : Prop := c = [] \/ wild c v.
Definition selects (c i : instrument KV) : Prop :=
  name_criterion (i_name c) (i_name i) /\ any_or_eq (i_desc c) (i_desc i) /\ none_or_eq (i_kind c) (i_kind i) /\
  any_or_eq (i_unit c) (i_unit i) /\
  any_or_eq (sc_name (i_scope c)) (sc_name (i_scope i)) /\
  none_or_eq (sc_version (i_scope c)) (sc_version (i_scope i)) /\ none_or_eq (sc_url (i_scope c)) (sc_url (i_scope i)).
(** Something is required of instruments. *)
Definition says_something (c : instrument KV) : Prop :=
  i_name c <> [] \/ i_desc c <> [] \/ i_kind c <> None \/ i_unit c <> [] \/ sc_name (i_scope c) <> [] \/
  sc_version (i_scope c) <> None \/ sc_url (i_scope c) <> None \/ sc_attrs (i_scope c) <> [].
Definition mask_usable (c : instrument KV) (m : stream) : Prop :=
  (forall a, st_agg m = Some a -> agg_valid a = true) /\
  (In 42 (i_name c) \/ In 63 (i_name c) -> st_name m = []).
(** Non-empty fields of the mask win. *)
Definition overridden (m i s : list N) : Prop := (m <> [] /\ s = m) \/ (m = [] /\ s = i).

Lemma is_nil_spec s : is_nil s = true <-> s = [].
Proof. destruct s; split; try discriminate; reflexivity. Qed.
Lemma any_or_eq_spec c v : is_nil c || str_eqb c v = true <-> any_or_eq c v.
Proof. rewrite orb_true_iff, is_nil_spec, str_eqb_eq. reflexivity. Qed.
Lemma opt_str_eqb_spec a b : opt_str_eqb a b = true <-> a = b.
Proof.
  destruct a, b; cbn; try (split; [discriminate|discriminate]); [|split; reflexivity].
  rewrite str_eqb_eq. split; congruence.
Qed.
Lemma none_or_eq_spec (c v : option (list N)) : match c with None => true | x => opt_str_eqb x v end = true <-> none_or_eq c v.
Proof.
  unfold none_or_eq. destruct c as [c|]; [|split; auto]. rewrite opt_str_eqb_spec. split; [auto|intros [H|H]; [discriminate|exact H]].
Qed.
Lemma matches_kind_spec (c i : instrument KV) : matches_kind c i = true <-> none_or_eq (i_kind c) (i_kind i).
Proof.
  unfold matches_kind, none_or_eq. destruct (i_kind c) as [k|], (i_kind i) as [k'|]; try (split; auto; fail).
  - destruct (kind_eq_dec k k'); split; intros; try reflexivity; try discriminate.
    + right. congruence.
    + destruct H; congruence.
  - split; [discriminate|]. intros [H|H]; discriminate.
Qed.
Lemma matches_scope_spec (c i : instrument KV) : matches_scope c i = true <->
  any_or_eq (sc_name (i_scope c)) (sc_name (i_scope i)) /\
  none_or_eq (sc_version (i_scope c)) (sc_version (i_scope i)) /\ none_or_eq (sc_url (i_scope c)) (sc_url (i_scope i)).
Proof.
  unfold matches_scope. rewrite !andb_true_iff, any_or_eq_spec, <- !none_or_eq_spec.
  destruct (sc_version (i_scope c)), (sc_url (i_scope c)); tauto.
Qed.
Lemma inst_is_empty_spec (c : instrument KV) : inst_is_empty c = false <-> says_something c.
Proof.
  rewrite <- not_true_iff_false. unfold inst_is_empty, scope_is_default, says_something.
  rewrite !andb_true_iff, !is_nil_spec, str_eqb_eq, !opt_str_eqb_spec, Nat.eqb_eq, length_zero_iff_nil.
  assert (Hk : match i_kind c with None => true | Some _ => false end = true <-> i_kind c = None) by (destruct (i_kind c); split; congruence).
  rewrite Hk.
  destruct (i_name c), (i_desc c), (i_kind c), (i_unit c), (sc_name (i_scope c)), (sc_version (i_scope c)), (sc_url (i_scope c)), (sc_attrs (i_scope c));
  split; intros H; try (intuition congruence); try (exfalso; apply H; repeat split; reflexivity);
  intuition congruence.
Qed.
Lemma has_wildcard_spec s : has_wildcard s = true <-> In 42 s \/ In 63 s.
Proof.
  unfold has_wildcard. rewrite existsb_exists. split.
  - intros (x & Hx & H). apply orb_true_iff in H. rewrite !N.eqb_eq in H. destruct H as [-> | ->]; auto.
  - intros [H|H]; [exists 42|exists 63]; auto.
Qed.
Lemma wild_literal c : ~ In 42 c -> ~ In 63 c -> forall s, wild c s <-> c = s.
Proof.
  induction c as [|x c IH]; intros H1 H2 s.
  - split; [intros H; now inversion H|intros <-; constructor].
  - split.
    + intros H. inversion H; subst; try (exfalso; apply H1; left; reflexivity) ; try (exfalso; apply H2; left; reflexivity).
      f_equal. apply IH; [intros Hx; apply H1; right; exact Hx|intros Hx; apply H2; right; exact Hx|assumption].
    + intros <-. constructor; [intros ->; apply H2; left; reflexivity|intros ->; apply H1; left; reflexivity|].
      apply IH; [intros Hx; apply H1; right; exact Hx|intros Hx; apply H2; right; exact Hx|reflexivity].
Qed.

(** For criteria whose name is a plain pattern: the view can be built, it matches
    exactly the instruments every criterion selects (unless the criteria are empty
    or the mask is unusable: then it matches nothing), and the stream takes the
    mask's non-empty fields and otherwise the instrument's. *)
Theorem C55_view : forall (c : instrument KV) m, plain (i_name c) ->
  exists v, new_view c m = Some v /\ forall i,
  ((exists s, apply_view v i = Some s) <-> says_something c /\ mask_usable c m /\ selects c i) /\
  (forall s, apply_view v i = Some s ->
     overridden (st_name m) (i_name i) (st_name s) /\ overridden (st_desc m) (i_desc i) (st_desc s) /\
     overridden (st_unit m) (i_unit i) (st_unit s) /\
     st_agg s = st_agg m /\ st_keys s = st_keys m /\ st_limit s = st_limit m).
Proof.
  intros c m Hp. unfold new_view. destruct (inst_is_empty c) eqn:He.
  { exists VEmpty. split; [reflexivity|]. intros i. split; [|discriminate]. split; [intros [s H]; discriminate|].
    intros [H _]. apply inst_is_empty_spec in H. congruence. }
  assert (Hsay : says_something c) by now apply inst_is_empty_spec.
  assert (Hov : forall a b, overridden a b (or_else a b)).
  { intros a b. unfold overridden, or_else. destruct a; [right|left]; cbn; split; congruence. }
  (* what [finish] gives *)
  assert (Fin : forall pat, (forall i, (match pat with Some t => pattern_matches t (i_name i) | None => matches_name c i end = true) <-> name_criterion (i_name c) (i_name i)) ->
     (In 42 (i_name c) \/ In 63 (i_name c) -> st_name m = []) ->
     exists v, match st_agg m with
      | Some a => if agg_valid a then Some (VMatch pat c (Some a) m) else Some VEmpty
      | None => Some (VMatch pat c None m)
      end = Some v /\ forall i,
    ((exists s, apply_view v i = Some s) <-> says_something c /\ mask_usable c m /\ selects c i) /\
    (forall s, apply_view v i = Some s ->
     overridden (st_name m) (i_name i) (st_name s) /\ overridden (st_desc m) (i_desc i) (st_desc s) /\
     overridden (st_unit m) (i_unit i) (st_unit s) /\
     st_agg s = st_agg m /\ st_keys s = st_keys m /\ st_limit s = st_limit m)).
  { intros pat Hn Hw.
    assert (Hit : forall i, (match pat with
               | Some t => pattern_matches t (i_name i) && matches_desc c i && matches_kind c i && matches_unit c i && matches_scope c i
               | None => inst_matches c i
               end) = true <-> selects c i).
    { intros i. transitivity ((match pat with Some t => pattern_matches t (i_name i) | None => matches_name c i end) && matches_desc c i && matches_kind c i && matches_unit c i && matches_scope c i = true).
      - destruct pat; reflexivity.
      - unfold selects. rewrite !andb_true_iff, Hn, matches_scope_spec, matches_kind_spec. unfold matches_desc, matches_unit.
        rewrite !any_or_eq_spec. tauto. }
    assert (Good : forall a, a = st_agg m -> (forall b, st_agg m = Some b -> agg_valid b = true) ->
       forall i, ((exists s, apply_view (VMatch pat c a m) i = Some s) <-> says_something c /\ mask_usable c m /\ selects c i) /\
       (forall s, apply_view (VMatch pat c a m) i = Some s ->
     overridden (st_name m) (i_name i) (st_name s) /\ overridden (st_desc m) (i_desc i) (st_desc s) /\
     overridden (st_unit m) (i_unit i) (st_unit s) /\
     st_agg s = st_agg m /\ st_keys s = st_keys m /\ st_limit s = st_limit m)).
    { intros a -> Ha i. specialize (Hit i). cbn [apply_view].
      destruct (match pat with Some t => pattern_matches t (i_name i) && matches_desc c i && matches_kind c i && matches_unit c i && matches_scope c i | None => inst_matches c i end) eqn:Eh.
      - split.
        + split; [|intros _; eexists; reflexivity]. intros _. split; [exact Hsay|]. split; [split; assumption|]. now apply Hit.
        + intros s E. injection E as <-. cbn. repeat split; apply Hov.
      - split; [|discriminate]. split; [intros [s H]; discriminate|]. intros (_ & _ & H). apply Hit in H. congruence. }
    destruct (st_agg m) as [a|] eqn:Ea.
    - destruct (agg_valid a) eqn:Ev.
      + eexists. split; [reflexivity|]. apply Good; [reflexivity|]. intros b E. congruence.
      + exists VEmpty. split; [reflexivity|]. intros i. split; [|discriminate]. split; [intros [s H]; discriminate|].
        intros (_ & [Hu _] & _). rewrite (Hu a Ea) in Ev. discriminate.
    - eexists. split; [reflexivity|]. apply Good; [reflexivity|]. intros b E. congruence. }
  destruct (has_wildcard (i_name c)) eqn:Hwc.
  - assert (Hwc' := proj1 (has_wildcard_spec _) Hwc). destruct (is_nil (st_name m)) eqn:Hnil.
    + destruct (C55_wildcards _ Hp) as (t & Et & Ht). rewrite Et. apply (Fin (Some t)).
      * intros i. rewrite Ht. unfold name_criterion. split; [auto|]. intros [E|H]; [|exact H]. rewrite E in Hwc'. destruct Hwc' as [[]|[]].
      * intros _. now apply is_nil_spec.
    + exists VEmpty. split; [reflexivity|]. intros i. split; [|discriminate]. split; [intros [s H]; discriminate|].
      intros (_ & [_ Hu] & _). specialize (Hu Hwc'). apply is_nil_spec in Hu. congruence.
  - assert (Hwc' : ~ In 42 (i_name c) /\ ~ In 63 (i_name c)).
    { rewrite <- not_true_iff_false, has_wildcard_spec in Hwc. tauto. }
    apply (Fin None).
    + intros i. unfold matches_name, name_criterion. rewrite any_or_eq_spec. unfold any_or_eq.
      rewrite (wild_literal _ (proj1 Hwc') (proj2 Hwc')). reflexivity.
    + tauto.
Qed.
End c55.
Print Assumptions C55_view.

(** Which aggregations are usable, given finite or infinite boundaries (a NaN is
    not noticed: it compares neither way). *)
Theorem C55_usable_aggregations :
  (forall b mm, (forall x, In x b -> f64_is_finite x = true) -> (agg_valid (AExplicit b mm) = true <-> boundaries_grammar b)) /\
  (forall n sc mm, agg_valid (AExpo n sc mm) = true <-> (-10 <= sc <= 20)%Z) /\
  agg_valid ADrop = true /\ agg_valid ADefault = true /\ agg_valid ASum = true /\ agg_valid ALastValue = true.
Proof.
  split; [|split; [|auto]].
  - intros b mm Hf. rewrite <- bounds_valid_spec. unfold bounds_valid. cbn [agg_valid].
    assert (E1 : forallb (fun b => negb (f64_is_nan b || f64_is_inf b)) b = true).
    { apply forallb_forall. intros x Hx. specialize (Hf x Hx). unfold f64_is_inf. rewrite Hf, (fin_not_nan x Hf). reflexivity. }
    rewrite E1. assert (E2 : monotonic b = increasing b); [|rewrite E2; reflexivity].
    clear. induction b as [|x b IH]; [reflexivity|]. destruct b as [|y b]; [reflexivity|].
    change (negb (f64_leb y x) && monotonic (y :: b) = negb (f64_leb y x) && increasing (y :: b)). now rewrite IH.
  - intros n sc mm. cbn [agg_valid]. rewrite andb_true_iff, !negb_true_iff, !Z.ltb_ge. tauto.
Qed.
Print Assumptions C55_usable_aggregations.

(** The documented meaning of patterns fails for those with brackets, which the
    glob crate reads as character classes, and for a doubled [*], which it rejects. *)
Theorem C115_any_pattern_refuted : ~ (forall p : list N, exists t, pattern_new p = Some t /\
  forall s, pattern_matches t s = true <-> wild p s).
Proof. intros H. destruct (H (of_string "http.**"%string)) as (t & E & _). vm_compute in E. discriminate. Qed.
Print Assumptions C115_any_pattern_refuted.
Theorem C115_bracket_pattern_refuted : ~ (forall (p s : list N) t, pattern_new p = Some t -> pattern_matches t s = true -> wild p s).
Proof.
  intros H. specialize (H (of_string "rpc[12]*"%string) (of_string "rpc1.duration"%string)).
  destruct (pattern_new (of_string "rpc[12]*"%string)) as [t|] eqn:E; [|vm_compute in E; discriminate].
  specialize (H t eq_refl). vm_compute in E. injection E as <-. specialize (H eq_refl). vm_compute in H.
  repeat match goal with H : wild _ _ |- _ => inversion H; subst; clear H; try congruence end.
Qed.
Print Assumptions C115_bracket_pattern_refuted.

(** "Matches iff every criterion that is set matches" fails for scope attributes:
    they are never compared, so criteria that only set them match everything. *)
Definition scope_attributes_agree {KV} (c i : instrument KV) : Prop :=
  sc_attrs (i_scope c) = [] \/ sc_attrs (i_scope c) = sc_attrs (i_scope i).
Theorem C115_scope_attributes_refuted : ~ (forall (c i : instrument N) m v s,
  new_view c m = Some v -> apply_view v i = Some s -> scope_attributes_agree c i).
Proof.
  intros H.
  specialize (H (mk_inst [] [] None [] (mk_scope _ [] None None [1]))
                (mk_inst (of_string "a") [] (Some KCounter) [] (mk_scope _ [] None None [2]))
                (mk_stream [] [] [] (Some ADrop) None None) _ _ eq_refl eq_refl).
  destruct H as [H|H]; discriminate.
Qed.
Print Assumptions C115_scope_attributes_refuted.

Definition ex_inst (n : string) : instrument N := mk_inst (of_string n) (of_string "d") (Some KCounter) (of_string "s") (mk_scope _ (of_string "lib") None None []).
Fixpoint has_double (p : list N) : bool :=
  match p with
  | [] => false
  | c :: r => ((c =? 42) && match r with d :: _ => d =? 42 | [] => false end) || has_double r
  end.
Example C55_nonvacuous :
  plain (of_string "http.*.d?r") /\
  (let c := mk_inst (of_string "http.*.d?r") [] None (of_string "s") (mk_scope N [] None None []) in
   let m := mk_stream [] (of_string "new") [] (Some ASum) None (Some 7) in
   match new_view c m with
   | Some v =>
     apply_view v (ex_inst "http.server.dur") =
       Some (mk_stream (of_string "http.server.dur") (of_string "new") (of_string "s") (Some ASum) None (Some 7)) /\
     apply_view v (ex_inst "http.dur") = None /\
     apply_view v (ex_inst "http..dr") = None
   | None => False
   end).
Proof.
  split.
  - split; [vm_compute; intuition discriminate|]. intros a b E.
    assert (H : forall a p, p = a ++ 42 :: 42 :: b -> has_double p = true).
    { clear. induction a as [|x a IH]; intros p ->; [reflexivity|]. cbn [app has_double].
      rewrite (IH _ eq_refl). apply orb_true_r. }
    apply H in E. vm_compute in E. discriminate.
  - vm_compute. repeat split.
Qed.
