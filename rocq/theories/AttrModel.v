(** Attribute lists and their canonical form. *)
From Coq Require Import String List NArith Bool Permutation Sorted.
From Verif Require Import Str.
Import ListNotations.

(** Key's Ord: strings compare by their bytes, which for UTF-8 is the order of
    the code points (opentelemetry/src/common.rs:14-15 derives it). *)
Fixpoint str_cmp (a b : str) : comparison :=
  match a, b with
  | [], [] => Eq
  | [], _ :: _ => Lt
  | _ :: _, [] => Gt
  | x :: a, y :: b => match N.compare x y with Eq => str_cmp a b | c => c end
  end.

Section attrs.
Context {Vl : Type}.
(** KeyValue (common.rs:386-392). *)
Definition kv : Type := str * Vl.
Definition kle (a b : kv) : Prop := str_cmp (fst a) (fst b) <> Gt.

(** [Vec::dedup_by(|a, b| a.key == b.key)]: drops an element whose key equals
    that of the last element kept. *)
Fixpoint dedup_from (last : kv) (l : list kv) : list kv :=
  match l with
  | [] => []
  | b :: l => match str_cmp (fst b) (fst last) with Eq => dedup_from last l | _ => b :: dedup_from b l end
  end.
Definition dedup_keys (l : list kv) : list kv := match l with [] => [] | a :: l => a :: dedup_from a l end.

(** [sort_unstable_by(|a, b| a.key.cmp(&b.key))]: which of two elements with the
    same key comes first is not specified, so the sorting function is arbitrary. *)
Definition sorter_ok (srt : list kv -> list kv) : Prop := forall l, Permutation (srt l) l /\ Sorted kle (srt l).
(** sort_and_dedup (opentelemetry-sdk/src/metrics/internal/mod.rs:225-233). *)
Definition sort_and_dedup (srt : list kv -> list kv) (l : list kv) : list kv := dedup_keys (srt l).

(** One such function, for examples. *)
Fixpoint sinsert (a : kv) (l : list kv) : list kv :=
  match l with
  | [] => [a]
  | b :: l' => match str_cmp (fst a) (fst b) with Gt => b :: sinsert a l' | _ => a :: l end
  end.
Definition isort (l : list kv) : list kv := fold_right sinsert [] l.
End attrs.
Arguments kv : clear implicits.

(** stream_overflow_attributes (mod.rs:21-25), given the value [true]. *)
Definition overflow_attrs {Vl} (yes : Vl) : list (kv Vl) := [(of_string "otel.metric.overflow"%string, yes)].
