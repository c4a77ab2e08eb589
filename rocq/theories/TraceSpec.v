(** Specification vocabulary for ids, trace state and the W3C header (C09-C16). *)
From Coq Require Import String List NArith Bool.
From Verif Require Import Str TraceModel.
Import ListNotations.
Local Open Scope N_scope.

(** ** Numbers in positional notation *)

(** Value of a string of hexadecimal digits (either case); [None] if some
    character is not a digit. *)
Definition hex_digit_value (c : char) : option N :=
  if (48 <=? c) && (c <=? 57) then Some (c - 48)
  else if (97 <=? c) && (c <=? 102) then Some (c - 97 + 10)
  else if (65 <=? c) && (c <=? 70) then Some (c - 65 + 10)
  else None.
Fixpoint hex_value_rev (s : str) : option N :=
  match s with
  | [] => Some 0
  | c :: r => match hex_digit_value c, hex_value_rev r with
              | Some d, Some v => Some (d + 16 * v)
              | _, _ => None
              end
  end.
Definition hex_value (s : str) : option N := hex_value_rev (rev s).

(** A field that [from_str_radix] accepts: an optional '+' and at least one
    digit. *)
Definition hex_field (s : str) (v : N) : Prop :=
  exists sign digits, s = sign ++ digits /\ (sign = [] \/ sign = [43]) /\
    digits <> [] /\ hex_value digits = Some v.

Definition lower_hex_char (c : char) : Prop := 48 <= c <= 57 \/ 97 <= c <= 102.

(** ** Trace state *)

Definition key_rest_char (c : char) : Prop :=
  (97 <= c <= 122) \/ (48 <= c <= 57) \/ In c (of_string "_-*/").
Definition lower_or_digit (c : char) : Prop := (97 <= c <= 122) \/ (48 <= c <= 57).

(** The key grammar the library implements: empty, or a simple key, or
    tenant "@" system with at most 13 characters after the '@'; at most 256
    characters. *)
Definition simple_part (s : str) : Prop :=
  exists c r, s = c :: r /\ lower_or_digit c /\ Forall key_rest_char r.
Definition lib_key (k : str) : Prop :=
  (List.length k <= 256)%nat /\
  (k = [] \/ simple_part k \/
   exists tenant system, k = tenant ++ 64 :: system /\ simple_part tenant /\
     (List.length system <= 13)%nat /\ (system = [] \/ simple_part system)).

(** The key grammar of the W3C recommendation that the documentation cites. *)
Definition w3c_key (k : str) : Prop :=
  (exists c r, k = c :: r /\ (97 <= c <= 122) /\ Forall key_rest_char r /\ (List.length r <= 255)%nat) \/
  (exists tenant system, k = tenant ++ 64 :: system /\
     simple_part tenant /\ (List.length tenant <= 241)%nat /\
     exists c r, system = c :: r /\ (97 <= c <= 122) /\ Forall key_rest_char r /\ (List.length r <= 13)%nat).

(** The value rule the library implements. *)
Definition lib_value (v : str) : Prop := blen v <= 256 /\ ~ In 44 v /\ ~ In 61 v.
(** The W3C value grammar: printable ASCII without ',' and '=', not ending in a blank. *)
Definition w3c_value (v : str) : Prop :=
  Forall (fun c => 32 <= c <= 126 /\ c <> 44 /\ c <> 61) v /\ (List.length v <= 256)%nat /\
  v <> [] /\ last v 0 <> 32.

(** The ordered members of a trace state. *)
Definition members (t : tstate) : list (str * str) := match t with Some l => l | None => [] end.

Definition valid_members (l : list (str * str)) : Prop :=
  Forall (fun e => lib_key (fst e) /\ lib_value (snd e)) l.

(** Operations by which a user obtains trace states. *)
Inductive ts_reach : tstate -> Prop :=
| TRdefault : ts_reach None
| TRkv l t : ts_from_key_value l = Ok t -> ts_reach t
| TRstr s t : ts_from_str s = Ok t -> ts_reach t
| TRins t k v t' : ts_reach t -> ts_insert t k v = Ok t' -> ts_reach t'
| TRdel t k t' : ts_reach t -> ts_delete t k = Ok t' -> ts_reach t'.

Definition without (k : str) (l : list (str * str)) : list (str * str) :=
  filter (fun e => negb (str_eqb (fst e) k)) l.

Definition keys (l : list (str * str)) : list str := map fst l.

(** The text of one list member as a sender may write it: any number of '='
    signs after the first one are padding. *)
Definition member_text (m : str * nat * str) : str :=
  let '(k, pad, v) := m in k ++ repeat 61 (S pad) ++ v.
Definition member_kv (m : str * nat * str) : str * str := let '(k, _, v) := m in (k, v).

(** A trace state holding exactly the given members. *)
Definition of_members (l : list (str * str)) : tstate := match l with [] => None | _ => Some l end.

(** The comma-separated header language: members joined by ',' with an
    optional trailing ','. *)
Definition header_of (ms : list (str * nat * str)) (s : str) : Prop :=
  s = join [44] (map member_text ms) \/ (ms <> [] /\ s = join [44] (map member_text ms) ++ [44]).

(** First value stored under a key. *)
Inductive first_value (k : str) : list (str * str) -> str -> Prop :=
| FVhere v r : first_value k ((k, v) :: r) v
| FVthere k' v' r v : k' <> k -> first_value k r v -> first_value k ((k', v') :: r) v.
