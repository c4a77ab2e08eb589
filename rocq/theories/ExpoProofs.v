(** Lemmas about the model of exponential histograms: what the buckets stand for
    and what recording and downscaling do to it. *)
From Coq Require Import List Bool Arith NArith ZArith Lia Permutation ZifyBool ZifyNat ZifyN.
From Flocq Require Import Core IEEE754.BinarySingleNaN IEEE754.Binary IEEE754.Bits.
From Verif Require Import F64 ExpoModel.
Import ListNotations.
Local Open Scope Z_scope.

Lemma i32_id z : - 2 ^ 31 <= z < 2 ^ 31 -> i32 z = z.
Proof. intros H. unfold i32. rewrite Z.mod_small; lia. Qed.
Global Opaque i32.

(** ** [upd] *)
Lemma upd_length i f l : length (upd i f l) = length l.
Proof. revert i. induction l as [|x l IH]; intros [|i]; cbn; auto. Qed.
Lemma upd_split i f l : (i < length l)%nat -> upd i f l = firstn i l ++ f (nth i l 0%N) :: skipn (S i) l.
Proof.
  revert i. induction l as [|x l IH]; intros i H; [cbn in H; lia|]. destruct i as [|i]; [reflexivity|].
  cbn [upd firstn nth app]. f_equal. rewrite (IH i) by (cbn in H; lia). reflexivity.
Qed.

(** ** The bins counted by a run of buckets *)
Fixpoint expand (start : Z) (counts : list N) : list Z :=
  match counts with
  | [] => []
  | c :: cs => repeat start (N.to_nat c) ++ expand (start + 1) cs
  end.
Definition bins (b : ebuckets) : list Z := expand (eb_start b) (eb_counts b).

Lemma expand_app s a b : expand s (a ++ b) = expand s a ++ expand (s + Z.of_nat (length a)) b.
Proof.
  revert s. induction a as [|c a IH]; intros s; cbn [expand app length].
  - replace (s + Z.of_nat 0) with s by lia. reflexivity.
  - rewrite IH, app_assoc. do 2 f_equal. lia.
Qed.
Lemma expand_zeros s n : expand s (repeat 0%N n) = [].
Proof. revert s. induction n as [|n IH]; intros s; cbn; auto. Qed.
Lemma expand_range s cs x : In x (expand s cs) -> s <= x < s + Z.of_nat (length cs).
Proof.
  revert s. induction cs as [|c cs IH]; intros s H; [destruct H|]. cbn [expand length] in *.
  apply in_app_or in H as [H|H]; [apply repeat_spec in H; lia|]. apply IH in H. lia.
Qed.
Lemma expand_length s cs : length (expand s cs) = N.to_nat (fold_right N.add 0%N cs).
Proof.
  revert s. induction cs as [|c cs IH]; intros s; [reflexivity|]. cbn [expand fold_right].
  rewrite app_length, repeat_length, IH. lia.
Qed.
Lemma count_repeat (x y : Z) n : count_occ Z.eq_dec (repeat x n) y = if Z.eq_dec x y then n else 0%nat.
Proof.
  induction n as [|n IH]; cbn [repeat count_occ]; [destruct (Z.eq_dec x y); reflexivity|].
  rewrite IH. destruct (Z.eq_dec x y); reflexivity.
Qed.
Lemma expand_count s cs i : count_occ Z.eq_dec (expand s cs) i =
  if (s <=? i) && (i <? s + Z.of_nat (length cs)) then N.to_nat (nth (Z.to_nat (i - s)) cs 0%N) else 0%nat.
Proof.
  revert s. induction cs as [|c cs IH]; intros s; cbn [expand length].
  - cbn. destruct ((s <=? i) && (i <? s + 0)) eqn:E; [|reflexivity]. lia.
  - rewrite count_occ_app, count_repeat, IH.
    destruct (Z.eq_dec s i) as [->|Hn].
    + replace (i + 1 <=? i) with false by lia. cbn [andb].
      replace ((i <=? i) && (i <? i + Z.of_nat (S (length cs)))) with true by lia.
      replace (i - i) with 0 by lia. cbn. lia.
    + destruct ((s + 1 <=? i) && (i <? s + 1 + Z.of_nat (length cs))) eqn:E.
      * replace ((s <=? i) && (i <? s + Z.of_nat (S (length cs)))) with true by lia.
        replace (Z.to_nat (i - s)) with (S (Z.to_nat (i - (s + 1)))) by lia. reflexivity.
      * replace ((s <=? i) && (i <? s + Z.of_nat (S (length cs)))) with false by lia. reflexivity.
Qed.

(** The first and the last bucket are in use. *)
Definition tight (b : ebuckets) : Prop :=
  eb_counts b = [] \/ (In (eb_start b) (bins b) /\ In (eb_start b + elen b - 1) (bins b)).

Lemma bins_range b x : In x (bins b) -> eb_start b <= x <= eb_start b + elen b - 1.
Proof. intros H. apply expand_range in H. unfold elen. lia. Qed.
Lemma tight_interval b lo hi : tight b -> (forall x, In x (bins b) -> lo <= x <= hi) ->
  eb_counts b <> [] -> lo <= eb_start b /\ eb_start b + elen b - 1 <= hi.
Proof. intros [E|[H1 H2]] H Hne; [contradiction|]. apply H in H1, H2. lia. Qed.

(** ** Recording *)
Lemma perm_mid {A} (x : A) a b c : Permutation (a ++ (x :: b) ++ c) (x :: a ++ b ++ c).
Proof. cbn. symmetry. apply Permutation_middle. Qed.

Definition small (z : Z) : Prop := - 2 ^ 31 <= z < 2 ^ 31.

Lemma eb_record_spec bin b lo hi :
  tight b -> (forall x, In x (bins b) -> lo <= x <= hi) -> lo <= bin <= hi ->
  - 2 ^ 31 <= lo -> hi < 2 ^ 31 -> hi - lo < 2 ^ 31 - 1 ->
  exists b', eb_record bin b = Some b' /\ Permutation (bins b') (bin :: bins b) /\ tight b' /\
    eb_start b' = (match eb_counts b with [] => bin | _ => Z.min bin (eb_start b) end) /\
    elen b' = (match eb_counts b with [] => 1 | _ => Z.max bin (eb_start b + elen b - 1) - Z.min bin (eb_start b) + 1 end).
Proof.
  intros Ht Hr Hb Hlo Hhi Hw. unfold eb_record. destruct (eb_counts b) as [|c0 cs0] eqn:Ec.
  - eexists. split; [reflexivity|]. unfold tight, bins, elen. cbn. rewrite Ec. cbn.
    split; [reflexivity|]. split; [right; replace (bin + 1 - 1) with bin by lia; split; left; reflexivity|split; reflexivity].
  - destruct (tight_interval b lo hi Ht Hr) as [L1 L2]; [rewrite Ec; discriminate|].
    assert (1 <= elen b) as L3 by (unfold elen; rewrite Ec; cbn [length]; lia).
    rewrite (i32_id (eb_start b + elen b - 1)) by lia. rewrite <- Ec.
    assert (tight b) as Ht' by exact Ht. destruct Ht' as [Ht'|[T1 T2]]; [congruence|].
    destruct ((eb_start b <=? bin) && (bin <=? eb_start b + elen b - 1)) eqn:E1.
    { eexists. split; [reflexivity|].
      assert (Permutation (bins (mk_eb (eb_start b) (upd (Z.to_nat (bin - eb_start b)) (fun n => n + 1)%N (eb_counts b)))) (bin :: bins b)) as P.
      { unfold bins. cbn [eb_start eb_counts]. set (i := Z.to_nat (bin - eb_start b)).
        assert (i < length (eb_counts b))%nat as Hi by (unfold elen in *; lia).
        rewrite (upd_split i _ _ Hi).
        rewrite <- (firstn_skipn i (eb_counts b)) at 4.
        assert (skipn i (eb_counts b) = nth i (eb_counts b) 0%N :: skipn (S i) (eb_counts b)) as ->.
        { clear -Hi. revert Hi. generalize (eb_counts b). induction i as [|i IH]; intros [|x l] H; cbn in *; try lia; auto. apply IH. lia. }
        rewrite !expand_app. cbn [expand].
        assert (eb_start b + Z.of_nat (length (firstn i (eb_counts b))) = bin) as ->.
        { rewrite firstn_length. lia. }
        replace (N.to_nat (nth i (eb_counts b) 0%N + 1%N)) with (S (N.to_nat (nth i (eb_counts b) 0%N))) by lia.
        cbn [repeat]. apply perm_mid. }
      split; [exact P|]. split; [|split].
      - right. unfold elen. cbn [eb_start eb_counts]. rewrite upd_length. fold (elen b).
        split; (eapply Permutation_in; [symmetry; exact P|right; assumption]).
      - cbn. lia.
      - unfold elen. cbn [eb_counts]. rewrite upd_length. fold (elen b). lia. }
    destruct (bin <? eb_start b) eqn:E2.
    { rewrite (i32_id (eb_start b + elen b - 1 - bin + 1)) by lia. rewrite (i32_id (eb_start b - bin)) by lia.
      replace ((eb_start b + elen b - 1 - bin + 1 <? 0) || (eb_start b - bin <? 0)
               || negb (eb_start b + elen b - 1 - bin + 1 =? eb_start b - bin + elen b)) with false by lia.
      eexists. split; [reflexivity|].
      set (k := Z.to_nat (eb_start b - bin)).
      assert (Z.of_nat k = eb_start b - bin) as Ek by lia. clearbody k.
      assert (exists k', k = S k') as [k' Hk] by (exists (Nat.pred k); lia). rewrite Hk. cbn [repeat app upd].
      assert (bins (mk_eb bin (1%N :: repeat 0%N k' ++ eb_counts b)) = bin :: bins b) as P.
      { unfold bins. cbn [eb_start eb_counts expand]. rewrite expand_app, expand_zeros, repeat_length.
        replace (bin + 1 + Z.of_nat k') with (eb_start b) by lia. reflexivity. }
      rewrite P. split; [reflexivity|]. split; [|split].
      - right. rewrite P. unfold elen. cbn [eb_start eb_counts length]. rewrite app_length, repeat_length. split; [left; reflexivity|].
        right. replace (bin + Z.of_nat (S (k' + length (eb_counts b))) - 1) with (eb_start b + elen b - 1) by (unfold elen; lia). exact T2.
      - cbn. lia.
      - unfold elen in *. cbn [eb_counts length]. rewrite app_length, repeat_length. lia. }
    rewrite (i32_id (bin - eb_start b)) by lia.
    replace (bin - eb_start b <? elen b) with false by lia.
    eexists. split; [reflexivity|].
    set (m := Z.to_nat (bin - eb_start b - elen b)).
    assert (Z.of_nat m = bin - eb_start b - elen b) as Em by lia. clearbody m.
    replace (Z.to_nat (bin - eb_start b - elen b + 1)) with (m + 1)%nat by lia.
    rewrite repeat_app. cbn [repeat]. rewrite app_assoc.
    assert (upd (Z.to_nat (bin - eb_start b)) (fun _ => 1%N) ((eb_counts b ++ repeat 0%N m) ++ [0%N]) = (eb_counts b ++ repeat 0%N m) ++ [1%N]) as ->.
    { assert (length (eb_counts b ++ repeat 0%N m) = Z.to_nat (bin - eb_start b)) as L by (rewrite app_length, repeat_length; unfold elen in *; lia).
      rewrite <- L. generalize (eb_counts b ++ repeat 0%N m). clear. intros l. induction l; cbn; congruence. }
    assert (bins (mk_eb (eb_start b) ((eb_counts b ++ repeat 0%N m) ++ [1%N])) = bins b ++ [bin]) as P.
    { unfold bins. cbn [eb_start eb_counts]. rewrite !expand_app, expand_zeros, app_nil_r, app_length, repeat_length.
      replace (eb_start b + Z.of_nat (length (eb_counts b) + m)) with bin by (unfold elen in *; lia). reflexivity. }
    split; [rewrite P; symmetry; apply Permutation_cons_append|]. split; [|split].
    + right. rewrite P. cbn [eb_start]. unfold elen. cbn [eb_counts]. rewrite !app_length, repeat_length. cbn [length]. split; apply in_or_app; [auto|].
      right. left. unfold elen in *. lia.
    + cbn. lia.
    + unfold elen in *. cbn [eb_counts]. rewrite !app_length, repeat_length. cbn [length]. lia.
Qed.

(** ** Downscaling *)
Fixpoint regroup (steps acc_idx : Z) (acc : N) (cs : list N) : list N :=
  match cs with
  | [] => [acc]
  | c :: cs => if acc_idx + 1 =? steps then acc :: regroup steps 0 c cs else regroup steps (acc_idx + 1) (acc + c) cs
  end.

Lemma map_repeat {A B} (f : A -> B) x n : map f (repeat x n) = repeat (f x) n.
Proof. induction n as [|n IH]; cbn; congruence. Qed.
Lemma expand_regroup d cs : forall phase acc i j, 0 <= d -> 0 <= phase < 2 ^ d -> i = j * 2 ^ d + phase + 1 ->
  expand j (regroup (2 ^ d) phase acc cs) = repeat j (N.to_nat acc) ++ map (fun x => Z.shiftr x d) (expand i cs).
Proof.
  induction cs as [|c cs IH]; intros phase acc i j Hd Hp Hi; cbn [regroup expand map]; [reflexivity|].
  assert (0 < 2 ^ d) as H2 by (apply Z.pow_pos_nonneg; lia).
  rewrite map_app, map_repeat, Z.shiftr_div_pow2 by exact Hd.
  destruct (phase + 1 =? 2 ^ d) eqn:E.
  - cbn [expand]. f_equal. rewrite (IH 0 c (i + 1) (j + 1)) by nia.
    assert (i / 2 ^ d = j + 1) as -> by (symmetry; apply Z.div_unique_pos with 0; nia). reflexivity.
  - rewrite (IH (phase + 1) (acc + c)%N (i + 1) j) by nia.
    rewrite N2Nat.inj_add, repeat_app, <- app_assoc.
    assert (i / 2 ^ d = j) as -> by (symmetry; apply Z.div_unique_pos with (phase + 1); nia). reflexivity.
Qed.

Lemma firstn_upd_ge q i f l : (q <= i)%nat -> firstn q (upd i f l) = firstn q l.
Proof. revert q l. induction i as [|i IH]; intros [|q] [|x l] H; cbn; try lia; try reflexivity. f_equal. apply IH. lia. Qed.
Lemma skipn_upd_lt q i f l : (i < q)%nat -> skipn q (upd i f l) = skipn q l.
Proof.
  revert i l. induction q as [|q IH]; intros i l H; [lia|]. destruct l as [|x l]; [destruct i; reflexivity|].
  destruct i as [|i]; [reflexivity|]. cbn. apply IH. lia.
Qed.
Lemma nth_upd_eq i f l : (i < length l)%nat -> nth i (upd i f l) 0%N = f (nth i l 0%N).
Proof. revert i. induction l as [|x l IH]; intros [|i] H; cbn in *; try lia; auto. apply IH. lia. Qed.
Lemma firstn_S_nth n (l : list N) : (n < length l)%nat -> firstn (S n) l = firstn n l ++ [nth n l 0%N].
Proof. revert l. induction n as [|n IH]; intros [|x l] H; cbn in *; try lia; auto. f_equal. apply IH. lia. Qed.
Lemma nth_skipn_hd i (l : list N) c r : skipn i l = c :: r -> nth i l 0%N = c /\ skipn (S i) l = r.
Proof. revert l. induction i as [|i IH]; intros [|x l] H; cbn in *; try discriminate; [injection H; auto|]. exact (IH l H). Qed.

Lemma ds_loop steps off : 0 < steps -> 0 <= off < steps -> forall rest arr i acc,
  (1 <= i)%nat -> (i + length rest = length arr)%nat -> skipn i arr = rest ->
  let q := Z.to_nat ((Z.of_nat i - 1 + off) / steps) in
  nth q arr 0%N = acc ->
  firstn (Z.to_nat ((Z.of_nat (length arr) - 1 + off) / steps) + 1) (fold_left (ds_step steps off) (seq i (length rest)) arr)
  = firstn q arr ++ regroup steps ((Z.of_nat i - 1 + off) mod steps) acc rest.
Proof.
  intros Hs Ho rest. induction rest as [|c rest IH]; intros arr i acc Hi Hl Hsk q Hacc.
  - cbn [seq fold_left regroup length] in *. replace (Z.of_nat (length arr)) with (Z.of_nat i) by lia. fold q.
    rewrite Nat.add_1_r, firstn_S_nth, Hacc; [reflexivity|].
    assert ((Z.of_nat i - 1 + off) / steps < Z.of_nat i) as D by (apply Z.div_lt_upper_bound; nia). lia.
  - cbn [seq fold_left length regroup]. destruct (nth_skipn_hd _ _ _ _ Hsk) as [Hn Hr].
    pose proof (Z.div_mod (Z.of_nat i - 1 + off) steps ltac:(lia)) as D.
    pose proof (Z.mod_pos_bound (Z.of_nat i - 1 + off) steps Hs) as B.
    set (ph := (Z.of_nat i - 1 + off) mod steps) in *. set (qz := (Z.of_nat i - 1 + off) / steps) in *.
    assert (0 <= qz) as Q0 by (apply Z.div_pos; lia).
    assert (qz < Z.of_nat i) as Q1 by (apply Z.div_lt_upper_bound; nia).
    cbn [length] in Hl. assert (Z.of_nat q = qz) as Eqz by (unfold q; lia).
    destruct (ph + 1 =? steps) eqn:E.
    + assert ((Z.of_nat i + off) / steps = qz + 1) as D1 by (symmetry; apply Z.div_unique_pos with 0; nia).
      assert ((Z.of_nat i + off) mod steps = 0) as M1 by (symmetry; apply Z.mod_unique_pos with (qz + 1); nia).
      assert (ds_step steps off arr i = upd (S q) (fun _ => c) arr) as St.
      { unfold ds_step. rewrite Hn, M1, D1. replace (Z.to_nat (qz + 1)) with (S q) by lia. reflexivity. }
      rewrite St.
      specialize (IH (upd (S q) (fun _ => c) arr) (S i) c).
      replace (Z.of_nat (S i) - 1 + off) with (Z.of_nat i + off) in IH by lia.
      rewrite D1, M1, upd_length in IH. rewrite IH; clear IH; try lia.
      * replace (Z.to_nat (qz + 1)) with (S q) by lia. rewrite firstn_upd_ge by lia.
        rewrite firstn_S_nth by lia. rewrite Hacc, <- app_assoc. reflexivity.
      * rewrite skipn_upd_lt by lia. exact Hr.
      * replace (Z.to_nat (qz + 1)) with (S q) by lia. apply nth_upd_eq. lia.
    + assert ((Z.of_nat i + off) / steps = qz) as D1 by (symmetry; apply Z.div_unique_pos with (ph + 1); nia).
      assert ((Z.of_nat i + off) mod steps = ph + 1) as M1 by (symmetry; apply Z.mod_unique_pos with qz; nia).
      assert (ds_step steps off arr i = upd q (fun x => x + c)%N arr) as St.
      { unfold ds_step. rewrite Hn, M1, D1. replace (ph + 1 =? 0) with false by lia. reflexivity. }
      rewrite St.
      specialize (IH (upd q (fun x => x + c)%N arr) (S i) (acc + c)%N).
      replace (Z.of_nat (S i) - 1 + off) with (Z.of_nat i + off) in IH by lia.
      rewrite D1, M1, upd_length in IH. rewrite IH; clear IH; try lia.
      * fold q. rewrite firstn_upd_ge by lia. reflexivity.
      * rewrite skipn_upd_lt by lia. exact Hr.
      * fold q. rewrite nth_upd_eq, Hacc by lia. reflexivity.
Qed.

Lemma rem_norm a s : 0 < s -> Z.rem (Z.rem a s + s) s = a mod s.
Proof.
  intros Hs. assert (- s < Z.rem a s < s) as B.
  { pose proof (Z.rem_bound_abs a s ltac:(lia)). lia. }
  rewrite (Z.rem_mod_nonneg (Z.rem a s + s) s) by lia.
  rewrite <- (Z.mul_1_l s) at 2. rewrite Z.mod_add by lia.
  pose proof (Z.quot_rem' a s) as Q. symmetry. apply Z.mod_unique_pos with (a / s - Z.quot a s).
  - apply Z.mod_pos_bound, Hs.
  - pose proof (Z.div_mod a s ltac:(lia)). nia.
Qed.

Lemma shiftr_add_mul a d : 0 <= d -> a = Z.shiftr a d * 2 ^ d + a mod 2 ^ d.
Proof. intros H. rewrite Z.shiftr_div_pow2 by exact H. pose proof (Z.div_mod a (2 ^ d)). nia. Qed.

Lemma downscale_bins d b : 0 <= d -> bins (eb_downscale d b) = map (fun x => Z.shiftr x d) (bins b).
Proof.
  intros Hd. unfold eb_downscale, elen. assert (0 < 2 ^ d) as H2 by (apply Z.pow_pos_nonneg; lia).
  destruct (eb_counts b) as [|c cs] eqn:Ec.
  { cbn. unfold bins. cbn. rewrite Ec. reflexivity. }
  destruct ((Z.of_nat (length (c :: cs)) <=? 1) || (d <? 1)) eqn:E.
  - unfold bins. rewrite Ec. cbn [eb_start eb_counts]. destruct (d <? 1) eqn:Ed.
    + assert (d = 0) as -> by lia. rewrite Z.shiftr_0_r. symmetry. transitivity (map (fun x => x) (expand (eb_start b) (c :: cs))).
      * apply map_ext. intros; apply Z.shiftr_0_r.
      * apply map_id.
    + destruct cs; [|cbn [length] in E; lia]. cbn [expand]. rewrite !app_nil_r, map_repeat. reflexivity.
  - cbv zeta. rewrite Z.shiftl_1_l, rem_norm by exact H2.
    unfold bins. rewrite Ec. cbn [eb_start eb_counts].
    set (off := eb_start b mod 2 ^ d).
    assert (0 <= off < 2 ^ d) as Ho by (apply Z.mod_pos_bound, H2).
    pose proof (ds_loop (2 ^ d) off H2 Ho cs (c :: cs) 1 c (le_n _)) as L. cbn [length skipn] in L.
    replace (Z.of_nat 1 - 1 + off) with off in L by lia.
    rewrite (Z.div_small off), (Z.mod_small off) in L by lia.
    cbn [Z.to_nat nth firstn app] in L. cbn [length Nat.sub].
    replace (length cs - 0)%nat with (length cs) by lia. rewrite L; try reflexivity.
    rewrite (expand_regroup d cs off c (eb_start b + 1)); [|exact Hd|exact Ho|rewrite (shiftr_add_mul (eb_start b) d Hd) at 1; reflexivity].
    cbn [expand]. rewrite map_app, map_repeat. reflexivity.
Qed.

Lemma ds_fold_length steps off l arr : length (fold_left (ds_step steps off) l arr) = length arr.
Proof.
  revert arr. induction l as [|i l IH]; intros arr; [reflexivity|]. cbn [fold_left]. rewrite IH.
  unfold ds_step. destruct (_ =? _); apply upd_length.
Qed.

Lemma downscale_end d b : 0 <= d -> eb_counts b <> [] ->
  eb_counts (eb_downscale d b) <> [] /\ eb_start (eb_downscale d b) = Z.shiftr (eb_start b) d /\
  eb_start (eb_downscale d b) + elen (eb_downscale d b) - 1 = Z.shiftr (eb_start b + elen b - 1) d.
Proof.
  intros Hd Hne. unfold eb_downscale. assert (0 < 2 ^ d) as H2 by (apply Z.pow_pos_nonneg; lia).
  assert (1 <= elen b) as L1 by (unfold elen; destruct (eb_counts b); [congruence|cbn [length]; lia]).
  destruct ((elen b <=? 1) || (d <? 1)) eqn:E.
  - cbn [eb_start eb_counts]. split; [exact Hne|]. split; [reflexivity|].
    unfold elen at 1. cbn [eb_counts]. fold (elen b). destruct (d <? 1) eqn:Ed.
    + assert (d = 0) as -> by lia. rewrite !Z.shiftr_0_r. reflexivity.
    + replace (elen b) with 1 by lia. replace (eb_start b + 1 - 1) with (eb_start b) by lia. lia.
  - cbv zeta. rewrite Z.shiftl_1_l, rem_norm by exact H2. cbn [eb_start eb_counts].
    set (off := eb_start b mod 2 ^ d).
    assert (0 <= off < 2 ^ d) as Ho by (apply Z.mod_pos_bound, H2).
    set (q := (elen b - 1 + off) / 2 ^ d).
    assert (0 <= q) as Q0 by (apply Z.div_pos; lia).
    assert (q < elen b) as Q1 by (apply Z.div_lt_upper_bound; nia).
    assert (elen (mk_eb (Z.shiftr (eb_start b) d) (firstn (Z.to_nat q + 1)
       (fold_left (ds_step (2 ^ d) off) (seq 1 (length (eb_counts b) - 1)) (eb_counts b)))) = q + 1) as L.
    { unfold elen. cbn [eb_counts]. rewrite firstn_length, ds_fold_length. unfold elen in *. lia. }
    split; [|split; [reflexivity|]].
    + intros C. unfold elen in L. cbn [eb_counts] in L. rewrite C in L. cbn in L. lia.
    + rewrite L. rewrite !Z.shiftr_div_pow2 by exact Hd.
      replace (eb_start b + elen b - 1) with (elen b - 1 + off + (eb_start b / 2 ^ d) * 2 ^ d)
        by (pose proof (Z.div_mod (eb_start b) (2 ^ d) ltac:(lia)); unfold off; lia).
      rewrite Z.div_add by lia. fold q. lia.
Qed.
Lemma downscale_nil d b : eb_counts b = [] -> eb_counts (eb_downscale d b) = [].
Proof. intros E. unfold eb_downscale, elen. rewrite E. reflexivity. Qed.
Lemma downscale_tight d b : 0 <= d -> tight b -> tight (eb_downscale d b).
Proof.
  intros Hd [E|[H1 H2]]; [left; apply downscale_nil, E|].
  destruct (eb_counts b) as [|c cs] eqn:Ec; [left; apply downscale_nil, Ec|].
  destruct (downscale_end d b Hd) as (_ & E1 & E2); [rewrite Ec; discriminate|].
  right. rewrite E2, E1, downscale_bins by exact Hd. split; apply in_map_iff; eexists; split; eauto.
Qed.

(** ** The scale change *)
Lemma shiftr_mono a b d : 0 <= d -> a <= b -> Z.shiftr a d <= Z.shiftr b d.
Proof. intros H L. rewrite !Z.shiftr_div_pow2 by exact H. apply Z.div_le_mono; [apply Z.pow_pos_nonneg; lia|exact L]. Qed.
Lemma shiftr_in lo hi x d : lo <= 0 -> -1 <= hi -> 0 <= d -> lo <= x <= hi -> lo <= Z.shiftr x d <= hi.
Proof.
  intros Hl Hh Hd H. rewrite Z.shiftr_div_pow2 by exact Hd.
  assert (0 < 2 ^ d) as P by (apply Z.pow_pos_nonneg; lia).
  split; [apply Z.div_le_lower_bound; nia|].
  assert (x / 2 ^ d < hi + 1); [apply Z.div_lt_upper_bound; nia|lia].
Qed.

Lemma sc_loop_spec fuel M lo hi : lo <= 0 -> -1 <= hi -> hi - lo < 2 ^ 31 -> forall low high,
  lo <= low -> low <= high -> high <= hi ->
  let k := sc_loop fuel M low high in
  (k <= fuel)%nat /\
  ((k < fuel)%nat -> Z.shiftr high (Z.of_nat k) - Z.shiftr low (Z.of_nat k) < M) /\
  (forall j, (j < k)%nat -> M <= Z.shiftr high (Z.of_nat j) - Z.shiftr low (Z.of_nat j)).
Proof.
  intros Hl Hh Hw. induction fuel as [|fuel IH]; intros low high H1 H2 H3; cbn [sc_loop].
  - cbv zeta. split; [lia|]. split; [lia|]. intros j Hj. lia.
  - rewrite i32_id by lia. destruct (M <=? high - low) eqn:E.
    + pose proof (shiftr_in lo hi low 1 Hl Hh ltac:(lia) ltac:(lia)).
      pose proof (shiftr_in lo hi high 1 Hl Hh ltac:(lia) ltac:(lia)).
      pose proof (shiftr_mono low high 1 ltac:(lia) H2).
      destruct (IH (Z.shiftr low 1) (Z.shiftr high 1)) as (K1 & K2 & K3); try lia.
      set (k := sc_loop fuel M (Z.shiftr low 1) (Z.shiftr high 1)) in *. cbv zeta. split; [lia|]. split.
      * intros Hk. specialize (K2 ltac:(lia)). rewrite !Z.shiftr_shiftr in K2 by lia.
        replace (Z.of_nat (S k)) with (1 + Z.of_nat k) by lia. exact K2.
      * intros [|j] Hj; [rewrite !Z.shiftr_0_r; lia|]. specialize (K3 j ltac:(lia)). rewrite !Z.shiftr_shiftr in K3 by lia.
        replace (Z.of_nat (S j)) with (1 + Z.of_nat j) by lia. exact K3.
    + cbv zeta. split; [lia|]. split; [intros _; rewrite !Z.shiftr_0_r; lia|]. intros j Hj. lia.
Qed.
