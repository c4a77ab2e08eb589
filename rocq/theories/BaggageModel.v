(** Model of opentelemetry/src/baggage.rs and
    opentelemetry-sdk/src/propagation/baggage.rs. *)
From Coq Require Import List NArith Bool.
From stdpp Require Import base gmap.
From Verif Require Import Str ContextModel.
Import ListNotations.
Local Open Scope N_scope.

(** ** The baggage map *)

(** [MAX_KEY_VALUE_PAIRS], [MAX_LEN_OF_ALL_PAIRS] (baggage.rs:29-30). *)
Definition MAX_PAIRS : N := 64.
Definition MAX_LEN : N := 8192.

(** [INVALID_ASCII_KEY_CHARS] (baggage.rs:33-36): ( ) , / : ; < = > ? @ [ \ ] { } and the double quote. *)
Definition invalid_key_chars : list N :=
  [40; 41; 44; 47; 58; 59; 60; 61; 62; 63; 64; 91; 92; 93; 123; 125; 34].

Notation bg_entry := (str * str)%type (only parsing). (* value, metadata *)

(** [Baggage] (baggage.rs:67-70).  [kv_content_len] is a usize; it is bounded
    by 8192 (C05), so no wrap-around is modelled.  The subtraction in
    [insert_with_metadata] is shown not to underflow. *)
Record baggage := mk_baggage { bg_map : gmap str bg_entry; bg_len : N }.

(** [Baggage::new] (baggage.rs:74-79). *)
Definition bg_new : baggage := mk_baggage ∅ 0.

(** [u8::is_ascii_graphic]. *)
Definition ascii_graphic (b : N) : bool := between 33 126 b.

(** [Baggage::is_key_valid] (baggage.rs:229-234), on the UTF-8 bytes. *)
Definition is_key_valid (key : list N) : bool :=
  match key with [] => false | _ => true end &&
  forallb (fun b => ascii_graphic b && negb (existsb (N.eqb b) invalid_key_chars)) key.

(** [key_value_metadata_bytes_size] (baggage.rs:238-240). *)
Definition kvm_size (k v m : str) : N := blen k + blen v + blen m.

(** [From<&str>/From<String> for BaggageMetadata] (baggage.rs:438-448). *)
Definition metadata_from (s : str) : str := trim s.

(** [Baggage::insert_with_metadata] (baggage.rs:157-206).  [metadata] is the
    text given to [BaggageMetadata::from]. *)
Definition bg_insert (b : baggage) (k v metadata : str) : baggage * option bg_entry :=
  let m := metadata_from metadata in
  match bg_map b !! k with
  | Some (pv, pm) =>
      let entry_len := kvm_size k v m in
      let prev_len := kvm_size k pv pm in
      let new_len := bg_len b + entry_len - prev_len in
      if MAX_LEN <? new_len then (b, None)
      else (mk_baggage (<[k := (v, m)]> (bg_map b)) new_len, Some (pv, pm))
  | None =>
      if negb (is_key_valid (utf8 k)) then (b, None)
      else if N.of_nat (size (bg_map b)) =? MAX_PAIRS then (b, None)
      else
        let new_len := bg_len b + kvm_size k v m in
        if MAX_LEN <? new_len then (b, None)
        else (mk_baggage (<[k := (v, m)]> (bg_map b)) new_len, None)
  end.

(** [Baggage::remove] (baggage.rs:210-212): the content length is not updated. *)
Definition bg_remove (b : baggage) (k : str) : baggage * option bg_entry :=
  (mk_baggage (delete k (bg_map b)) (bg_len b), bg_map b !! k).

(** [Baggage::get], [get_with_metadata], [len], [is_empty] (baggage.rs:95-97, 113-119, 215-222). *)
Definition bg_get_with_metadata (b : baggage) (k : str) : option bg_entry := bg_map b !! k.
Definition bg_get (b : baggage) (k : str) : option str := option_map fst (bg_map b !! k).
Definition bg_size (b : baggage) : nat := size (bg_map b).
Definition bg_is_empty (b : baggage) : bool := Nat.eqb (size (bg_map b)) 0.

(** The three [FromIterator] implementations (baggage.rs:263-291): insert each
    item in order into an empty baggage. *)
Definition bg_from_iter (l : list (str * (str * str))) : baggage :=
  fold_left (fun b e => fst (bg_insert b (fst e) (fst (snd e)) (snd (snd e)))) l bg_new.

(** ** Baggage in a context *)

(** Type ids of [BaggageContextValue] and [Baggage]: any two distinct ids. *)
Definition TY_BAGGAGE_CONTEXT_VALUE : type_id := 1.
Definition TY_BAGGAGE : type_id := 2.

Section cx.
Context {S : Type}.
Notation cx := (context S baggage).

(** [with_baggage] (baggage.rs:406-408). *)
Definition cx_with_baggage (c : cx) (b : baggage) : cx :=
  cx_with_value TY_BAGGAGE_CONTEXT_VALUE b c.

(** [with_cleared_baggage] (baggage.rs:414-416): stores a [Baggage], not a
    [BaggageContextValue]. *)
Definition cx_with_cleared_baggage (c : cx) : cx := cx_with_value TY_BAGGAGE bg_new c.

(** [BaggageExt::baggage] (baggage.rs:418-421). *)
Definition cx_baggage (c : cx) : baggage :=
  match cx_get TY_BAGGAGE_CONTEXT_VALUE c with Some b => b | None => bg_new end.
End cx.

(** ** Percent encoding *)

(** [FRAGMENT] (propagation/baggage.rs:12): [CONTROLS] (0-31 and 127), space,
    double quote, ';', ',' and '='. *)
Definition in_fragment (b : N) : bool :=
  (b <? 32) || (b =? 127) || (b =? 32) || (b =? 34) || (b =? 59) || (b =? 44) || (b =? 61).

(** percent_encoding crate, [AsciiSet::should_percent_encode]: non-ASCII bytes
    and the set's members. *)
Definition should_encode (b : N) : bool := negb (b <? 128) || in_fragment b.

Definition pct_byte (b : N) : list N := [37; hex_char_upper (b / 16); hex_char_upper (b mod 16)].

(** [utf8_percent_encode(s, FRAGMENT)], collected. *)
Definition pct_encode (s : str) : str :=
  flat_map (fun b => if should_encode b then pct_byte b else [b]) (utf8 s).

(** [percent_decode]: '%' followed by two hexadecimal digits is a byte, any
    other byte (also a lone '%') stands for itself. *)
Fixpoint pct_decode (bs : list N) : list N :=
  match bs with
  | [] => []
  | b :: r =>
    if b =? 37 then
      match r with
      | h :: l :: r' =>
        match hex_val h, hex_val l with
        | Some x, Some y => (x * 16 + y) :: pct_decode r'
        | _, _ => b :: pct_decode r
        end
      | _ => b :: pct_decode r
      end
    else b :: pct_decode r
  end.

(** [percent_decode_str(s).decode_utf8()]; [None] is [Err(Utf8Error)]. *)
Definition pct_decode_str (s : str) : option str := utf8_decode (pct_decode (utf8 s)).

(** ** The propagator *)

Definition COMMA : N := 44.
Definition SEMI : N := 59.
Definition EQUALS : N := 61.

(** The closure in [inject_context] (propagation/baggage.rs:84-95). *)
Definition bg_item_header (e : str * bg_entry) : str :=
  let '(name, (value, metadata)) := e in
  let metadata_str := trim metadata in
  let metadata_prefix := match metadata_str with [] => [] | _ => [SEMI] end in
  pct_encode (trim name) ++ [EQUALS] ++ pct_encode (trim value) ++ metadata_prefix ++ metadata_str.

(** [BaggagePropagator::inject_context] (propagation/baggage.rs:80-99): the
    value given to [injector.set("baggage", _)], if any.  [items] is the
    iteration order of the hash map. *)
Definition bg_inject (b : baggage) (items : list (str * bg_entry)) : option str :=
  if bg_is_empty b then None
  else Some (join [COMMA] (map bg_item_header items)).

(** One list member in [extract_with_context] (propagation/baggage.rs:104-152). *)
Definition bg_parse_item (context_value : str) : option (str * (str * str)) :=
  match split SEMI context_value with
  | [] => None
  | name_and_value :: props =>
    match split EQUALS name_and_value with
    | name :: value :: _ =>
      match pct_decode_str name, pct_decode_str value with
      | Some name, Some value =>
        let decoded_props :=
          join [SEMI] (map trim (flat_map (fun p => match pct_decode_str p with
                                                    | Some q => [q] | None => [] end) props)) in
        Some (trim name, (trim value, decoded_props))
      | _, _ => None
      end
    | _ => None
    end
  end.

(** [filter_map] over the members, collected into a [Baggage]
    (propagation/baggage.rs:104-153). *)
Definition bg_extract (header : str) : baggage :=
  bg_from_iter (flat_map (fun i => match bg_parse_item i with Some e => [e] | None => [] end)
                         (split COMMA header)).

(** [BaggagePropagator::extract_with_context] (propagation/baggage.rs:102-158);
    [header] is [extractor.get("baggage")]. *)
Definition bg_extract_with_context {S} (c : context S baggage) (header : option str)
  : context S baggage :=
  match header with
  | Some h => cx_with_baggage c (bg_extract h)
  | None => c
  end.

(** ** [Display for Baggage] *)

(** [encode] (baggage.rs:303-317). *)
Definition disp_encode (s : str) : str :=
  flat_map (fun b =>
    if is_lower b || is_upper b || is_digit b || (b =? 46) || (b =? 45) || (b =? 95) || (b =? 126)
    then [b]
    else if b =? 32 then [37; 50; 48]
    else pct_byte b) (utf8 s).

(** [Display::fmt] (baggage.rs:319-333): the comma is written after every item
    but the last. *)
Definition bg_display_item (e : str * bg_entry) : str :=
  fst e ++ [EQUALS] ++ disp_encode (fst (snd e)) ++
  match snd (snd e) with [] => [] | m => SEMI :: m end.
Definition bg_display (items : list (str * bg_entry)) : str :=
  join [COMMA] (map bg_display_item items).
