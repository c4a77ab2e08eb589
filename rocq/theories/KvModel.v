(** Attribute values, their equality and their hash; instrumentation scopes. *)
From Coq Require Import String List NArith ZArith Bool.
From Verif Require Import Str F64 AttrModel.
Import ListNotations.

(** Array and Value (opentelemetry/src/common.rs:157-166, 221-232).  The three
    representations of a string (OtelString, common.rs:107-141) compare, order and hash
    by their contents, so a string is its contents. *)
Inductive array := ABool (l : list bool) | AI64 (l : list Z) | AF64 (l : list f64) | AString (l : list str).
Inductive value := VBool (b : bool) | VI64 (z : Z) | VF64 (f : f64) | VString (s : str) | VArray (a : array).
Definition attr : Type := kv value.

(** Vec's [==]: same length and equal elements. *)
Fixpoint list_eqb {A} (eqb : A -> A -> bool) (a b : list A) : bool :=
  match a, b with
  | [], [] => true
  | x :: a, y :: b => eqb x y && list_eqb eqb a b
  | _, _ => false
  end.

(** The derived PartialEq of Array, Value and KeyValue (common.rs:156, 220, 392): floats
    compare with IEEE [==]. *)
Definition array_eqb (a b : array) : bool :=
  match a, b with
  | ABool x, ABool y => list_eqb Bool.eqb x y
  | AI64 x, AI64 y => list_eqb Z.eqb x y
  | AF64 x, AF64 y => list_eqb f64_eqb x y
  | AString x, AString y => list_eqb str_eqb x y
  | _, _ => false
  end.
Definition value_eqb (a b : value) : bool :=
  match a, b with
  | VBool x, VBool y => Bool.eqb x y
  | VI64 x, VI64 y => Z.eqb x y
  | VF64 x, VF64 y => f64_eqb x y
  | VString x, VString y => str_eqb x y
  | VArray x, VArray y => array_eqb x y
  | _, _ => false
  end.
Definition attr_eqb (a b : attr) : bool := str_eqb (fst a) (fst b) && value_eqb (snd a) (snd b).

(** One call on a Hasher: str::hash, u8/bool, i64, u64, the length prefix of a slice, the
    discriminant of an Option.  Whether equal streams are fed is all that matters to a
    map; how a hasher mixes them is not modelled. *)
Inductive tok := TStr (s : str) | TBool (b : bool) | TI64 (z : Z) | TU64 (z : Z) | TLen (n : nat) | TDisc (b : bool).

(** Hash for KeyValue (common.rs:426-448): no discriminants, floats by their bits, and
    float arrays without a length. *)
Definition value_hash (v : value) : list tok :=
  match v with
  | VF64 f => [TU64 (f64_bits f)]
  | VArray (ABool l) => TLen (List.length l) :: map TBool l
  | VArray (AI64 l) => TLen (List.length l) :: map TI64 l
  | VArray (AF64 l) => map (fun f => TU64 (f64_bits f)) l
  | VArray (AString l) => TLen (List.length l) :: map TStr l
  | VBool b => [TBool b]
  | VI64 z => [TI64 z]
  | VString s => [TStr s]
  end.
Definition attr_hash (a : attr) : list tok := TStr (fst a) :: value_hash (snd a).

(** InstrumentationScope (common.rs:462-478). *)
Record scope := mk_scope { sc_name : str; sc_version : option str; sc_url : option str; sc_attrs : list attr }.

Definition option_eqb {A} (eqb : A -> A -> bool) (a b : option A) : bool :=
  match a, b with Some x, Some y => eqb x y | None, None => true | _, _ => false end.

Section scope.
(** sort_unstable_by on the keys: some function that sorts (see AttrModel). *)
Context (srt : list attr -> list attr).
(** PartialEq for InstrumentationScope (common.rs:480-494). *)
Definition scope_eqb (a b : scope) : bool :=
  str_eqb (sc_name a) (sc_name b) && option_eqb str_eqb (sc_version a) (sc_version b) &&
  option_eqb str_eqb (sc_url a) (sc_url b) && Nat.eqb (List.length (sc_attrs a)) (List.length (sc_attrs b)) &&
  list_eqb attr_eqb (srt (sc_attrs a)) (srt (sc_attrs b)).
(** Hash for InstrumentationScope (common.rs:498-509). *)
Definition opt_hash (o : option str) : list tok := match o with Some s => [TDisc true; TStr s] | None => [TDisc false] end.
Definition scope_hash (a : scope) : list tok :=
  TStr (sc_name a) :: opt_hash (sc_version a) ++ opt_hash (sc_url a) ++ flat_map attr_hash (srt (sc_attrs a)).
End scope.
