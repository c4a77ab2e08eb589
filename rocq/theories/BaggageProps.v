(** Properties C05-C08 and C67: baggage. *)
From Coq Require Import String List NArith Bool.
From stdpp Require Import base list gmap.
From Verif Require Import Str ContextModel BaggageModel BaggageSpec BaggageProofs.
Import ListNotations.
Local Open Scope N_scope.

(** C05.  After any sequence of inserts and removes the baggage holds at most
    64 entries and 8192 bytes, all under permitted keys (one entry per key is
    the map type). *)
Theorem C05_limits :
  forall ops : list bg_op,
    (size (bg_map (bg_run ops)) <= 64)%nat /\
    content (bg_map (bg_run ops)) <= 8192 /\
    forall k e, bg_map (bg_run ops) !! k = Some e -> permitted_key k.
Proof. exact limits. Qed.
Print Assumptions C05_limits.

(** C05.  Collecting an iterator is a sequence of inserts. *)
Theorem C05_from_iter_is_inserts :
  forall l, bg_from_iter l =
    bg_run (map (fun e => BInsert (fst e) (fst (snd e)) (snd (snd e))) l).
Proof. exact from_iter_run. Qed.
Print Assumptions C05_from_iter_is_inserts.

(** C05.  The limits also hold for baggage read from any header text. *)
Theorem C05_extract_limits :
  forall header : str,
    let b := bg_extract header in
    (size (bg_map b) <= 64)%nat /\ content (bg_map b) <= 8192 /\
    forall k e, bg_map b !! k = Some e -> permitted_key k.
Proof. exact extract_limits. Qed.
Print Assumptions C05_extract_limits.

Example C05_example :
  let b := bg_run [BInsert (of_string "a") (of_string "1") (of_string " m ");
                   BInsert (of_string "b c") (of_string "2") [];
                   BInsert (of_string "a") (of_string "3") []] in
  size (bg_map b) = 1%nat /\ content (bg_map b) = 2 /\ bg_get b (of_string "a") = Some (of_string "3").
Proof. vm_compute. repeat split. Qed.

(** C06.  An insert either is rejected and changes nothing, or stores exactly
    the value and (trimmed) metadata, returns the previous entry and leaves the
    other keys alone. *)
Theorem C06_insert_semantics :
  forall ops k v m,
    let b := bg_run ops in
    let r := bg_insert b k v m in
    r = (b, None) \/
    (snd r = bg_get_with_metadata b k /\
     bg_get_with_metadata (fst r) k = Some (v, trim m) /\
     forall k', k' <> k -> bg_get_with_metadata (fst r) k' = bg_get_with_metadata b k').
Proof. exact insert_semantics. Qed.
Print Assumptions C06_insert_semantics.

(** C06.  Exactly when the inserted entry is in place afterwards: the key is
    present, or permitted with room for another entry; and the resulting
    content plus the bytes of all entries removed earlier is at most 8192. *)
Theorem C06_insert_acceptance :
  forall ops k v m,
    let b := bg_run ops in
    bg_get_with_metadata (fst (bg_insert b k v m)) k = Some (v, trim m) <->
    bg_get_with_metadata b k = Some (v, trim m) \/
    (match bg_get_with_metadata b k with
     | Some _ => True
     | None => permitted_key k /\ (bg_size b < 64)%nat
     end /\
     content (<[k := (v, trim m)]> (bg_map b)) + removed_from bg_new ops <= 8192).
Proof. exact insert_acceptance. Qed.
Print Assumptions C06_insert_acceptance.

(** C06.  On histories without removals nothing else counts than the entries
    present. *)
Theorem C06_no_removal_no_leak :
  forall ops,
    Forall (fun o => match o with BInsert _ _ _ => True | BRemove _ => False end) ops ->
    forall b, removed_from b ops = 0.
Proof. exact removed_none. Qed.
Print Assumptions C06_no_removal_no_leak.

Theorem C06_remove_semantics :
  forall ops k,
    let b := bg_run ops in
    snd (bg_remove b k) = bg_get_with_metadata b k /\
    bg_get_with_metadata (fst (bg_remove b k)) k = None /\
    forall k', k' <> k -> bg_get_with_metadata (fst (bg_remove b k)) k' = bg_get_with_metadata b k'.
Proof. exact remove_semantics. Qed.
Print Assumptions C06_remove_semantics.

(** C89 refuted in its last sentence: two histories with the same (empty)
    entries, one of which rejects an insert the other accepts. *)
Theorem C89_space_given_back_refuted :
  exists (ops : list bg_op) (k v : str),
    bg_map (bg_run ops) = bg_map (bg_run []) /\
    bg_get (fst (bg_insert (bg_run []) k v [])) k = Some v /\
    bg_get (fst (bg_insert (bg_run ops) k v [])) k = None.
Proof. exact (ex_intro _ _ (ex_intro _ _ (ex_intro _ _ remove_leaks))). Qed.
Print Assumptions C89_space_given_back_refuted.

(** C07.  Storing baggage in a context and reading it back. *)
Theorem C07_with_baggage :
  forall (S : Type) (c : context S baggage) (b : baggage), cx_baggage (cx_with_baggage c b) = b.
Proof. exact (fun S => @with_baggage_get S). Qed.
Print Assumptions C07_with_baggage.

(** C07 refuted: clearing never changes the context's baggage ... *)
Theorem C07_clear_never_clears :
  forall (S : Type) (c : context S baggage),
    cx_baggage (cx_with_cleared_baggage c) = cx_baggage c.
Proof. exact (fun S => @cleared_noop S). Qed.
Print Assumptions C07_clear_never_clears.

(** ... so a context that has baggage keeps it. *)
Theorem C07_clear_refuted :
  exists c : context unit baggage,
    size (bg_map (cx_baggage (cx_with_cleared_baggage c))) = 1%nat.
Proof. exact clear_refuted. Qed.
Print Assumptions C07_clear_refuted.

(** C08.  Baggage whose keys and values contain no "%XX", whose values carry no
    surrounding white space and whose metadata contains no comma, no "%XX" and
    only trimmed properties survives inject and extract, in whatever order the
    hash map iterates. *)
Theorem C08_inject_extract :
  forall ops items,
    Forall (fun o => op_wf o = true) ops ->
    representable (bg_map (bg_run ops)) ->
    items ≡ₚ map_to_list (bg_map (bg_run ops)) ->
    match bg_inject (bg_run ops) items with
    | Some header => bg_map (bg_extract header) = bg_map (bg_run ops)
    | None => bg_map (bg_run ops) = ∅
    end.
Proof. exact roundtrip. Qed.
Print Assumptions C08_inject_extract.

(** The domain is not trivial: UTF-8, separators and spaces inside values. *)
Example C08_example :
  let v := of_string "a, b;c=d " ++ [233; 128640] in
  let m := of_string "p=1;q" in
  let ops := [BInsert (of_string "k1") v m; BInsert (of_string "k2") [] []] in
  Forall (fun o => op_wf o = true) ops /\
  match bg_inject (bg_run ops) (map_to_list (bg_map (bg_run ops))) with
  | Some header => bg_get_with_metadata (bg_extract header) (of_string "k1") = Some (v, m) /\
                   bg_get_with_metadata (bg_extract header) (of_string "k2") = Some ([], [])
  | None => False
  end.
Proof. cbv zeta. split; [repeat constructor|]. vm_compute. repeat split. Qed.

Example C08_example_representable :
  value_representable (of_string "a, b;c=d " ++ [233; 128640]) /\ meta_representable (of_string "p=1;q").
Proof.
  split; [split; [reflexivity|apply npxb_ok; reflexivity]|].
  split; [|split; [apply npxb_ok; reflexivity|repeat constructor]].
  intros H. vm_compute in H. repeat destruct H as [H|H]; try discriminate H; exact H.
Qed.

(** C90 refuted without the restriction: the value 100%25 arrives as 100%. *)
Theorem C90_percent_refuted :
  exists ops,
    Forall (fun o => op_wf o = true) ops /\
    bg_get (bg_run ops) (of_string "k") = Some (of_string "100%25") /\
    match bg_inject (bg_run ops) (map_to_list (bg_map (bg_run ops))) with
    | Some header => bg_get (bg_extract header) (of_string "k") = Some (of_string "100%")
    | None => False
    end.
Proof. exact percent_refuted. Qed.
Print Assumptions C90_percent_refuted.

(** C67.  The text form of a baggage (Display) is a header from which the
    extractor restores it, for values containing any characters, '%' included. *)
Theorem C67_display_extract :
  forall ops items,
    Forall (fun o => op_wf o = true) ops ->
    (forall k v md, bg_map (bg_run ops) !! k = Some (v, md) ->
       key_representable k /\ trim v = v /\ meta_representable md) ->
    items ≡ₚ map_to_list (bg_map (bg_run ops)) -> items <> [] ->
    bg_map (bg_extract (bg_display items)) = bg_map (bg_run ops).
Proof. exact display_roundtrip. Qed.
Print Assumptions C67_display_extract.

Example C67_example :
  let ops := [BInsert (of_string "k") (of_string "100%25 x") []] in
  bg_get (bg_extract (bg_display (map_to_list (bg_map (bg_run ops))))) (of_string "k")
  = Some (of_string "100%25 x").
Proof. vm_compute. reflexivity. Qed.
