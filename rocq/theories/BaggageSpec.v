(** Specification vocabulary for the baggage properties C05-C08. *)
From Coq Require Import String List NArith Bool.
From stdpp Require Import base gmap.
From Verif Require Import Str ContextModel BaggageModel.
Import ListNotations.
Local Open Scope N_scope.

(** The mutating operations of the API; [from_iter] is a sequence of inserts
    into an empty baggage. *)
Inductive bg_op := BInsert (k v m : str) | BRemove (k : str).

Definition bg_step (b : baggage) (o : bg_op) : baggage :=
  match o with
  | BInsert k v m => fst (bg_insert b k v m)
  | BRemove k => fst (bg_remove b k)
  end.

Definition bg_run (ops : list bg_op) : baggage := fold_left bg_step ops bg_new.

(** Strings of a Rust program are sequences of Unicode scalar values. *)
Definition op_wf (o : bg_op) : bool :=
  match o with
  | BInsert k v m => wf_str k && wf_str v && wf_str m
  | BRemove k => wf_str k
  end.

(** Total number of bytes of the keys, values and metadata held. *)
Definition content (m : gmap str (str * str)) : N :=
  fold_right (fun e acc => blen (fst e) + blen (fst (snd e)) + blen (snd (snd e)) + acc) 0
             (map_to_list m).

(** A permitted key: a non-empty RFC 7230 token character sequence. *)
Definition token_char (c : char) : Prop :=
  33 <= c <= 126 /\ ~ In c (of_string "(),/:;<=>?@[\]{}"%string ++ [34]).
Definition permitted_key (k : str) : Prop := k <> [] /\ Forall token_char k.

(** What may be sent through the header and come back unchanged. *)

(** no '%' followed by two hexadecimal digits *)
Definition no_escape (s : str) : Prop :=
  forall a h l b, s = a ++ 37 :: h :: l :: b -> hex_val h = None \/ hex_val l = None.

Definition key_representable (k : str) : Prop := no_escape k.
Definition value_representable (v : str) : Prop := trim v = v /\ no_escape v.
Definition meta_representable (m : str) : Prop :=
  ~ In COMMA m /\ no_escape m /\ Forall (fun p => trim p = p) (split SEMI m).
Definition representable (m : gmap str (str * str)) : Prop :=
  forall k v md, m !! k = Some (v, md) ->
    key_representable k /\ value_representable v /\ meta_representable md.
