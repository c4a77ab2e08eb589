(** Strings and the parts of Rust's standard library on strings that the
    modelled code uses.  A [str] is the list of its Unicode scalar values; its
    UTF-8 bytes are [utf8 s]. *)
From Coq Require Import List NArith Bool String Ascii.
Import ListNotations.
Local Open Scope N_scope.

Definition char := N.
Definition str := list N.
Definition byte := N.

(** Coq string literals (ASCII) as [str]. *)
Definition of_string (s : string) : str := map N_of_ascii (list_ascii_of_string s).

(** Rust [==] on strings. *)
Fixpoint str_eqb (a b : str) : bool :=
  match a, b with
  | [], [] => true
  | x :: a', y :: b' => N.eqb x y && str_eqb a' b'
  | _, _ => false
  end.

(** A Rust [char] is a Unicode scalar value. *)
Definition is_scalar (c : char) : bool :=
  (c <? 0xD800) || ((0xE000 <=? c) && (c <? 0x110000)).
Definition wf_str (s : str) : bool := forallb is_scalar s.

(** [char::encode_utf8]. *)
Definition utf8_char (c : char) : list byte :=
  if c <? 0x80 then [c]
  else if c <? 0x800 then [0xC0 + c / 64; 0x80 + c mod 64]
  else if c <? 0x10000 then [0xE0 + c / 4096; 0x80 + (c / 64) mod 64; 0x80 + c mod 64]
  else [0xF0 + c / 262144; 0x80 + (c / 4096) mod 64; 0x80 + (c / 64) mod 64; 0x80 + c mod 64].

(** [str::as_bytes] and [str::len] (which counts bytes). *)
Definition utf8 (s : str) : list byte := flat_map utf8_char s.
Definition blen (s : str) : N := N.of_nat (List.length (utf8 s)).

Definition is_cont (b : byte) : bool := (0x80 <=? b) && (b <? 0xC0).
Definition between (lo hi b : N) : bool := (lo <=? b) && (b <=? hi).

(** [str::from_utf8] (strict: no overlong forms, no surrogates, no values above
    0x10FFFF), returning the decoded scalars. *)
Fixpoint utf8_decode (bs : list byte) : option str :=
  match bs with
  | [] => Some []
  | b0 :: r0 =>
    if b0 <? 0x80 then option_map (cons b0) (utf8_decode r0)
    else match r0 with
    | [] => None
    | b1 :: r1 =>
      if between 0xC2 0xDF b0 then
        if is_cont b1 then option_map (cons ((b0 - 0xC0) * 64 + (b1 - 0x80))) (utf8_decode r1)
        else None
      else match r1 with
      | [] => None
      | b2 :: r2 =>
        if between 0xE0 0xEF b0 then
          let ok1 := if b0 =? 0xE0 then between 0xA0 0xBF b1
                     else if b0 =? 0xED then between 0x80 0x9F b1
                     else is_cont b1 in
          if ok1 && is_cont b2
          then option_map (cons ((b0 - 0xE0) * 4096 + (b1 - 0x80) * 64 + (b2 - 0x80))) (utf8_decode r2)
          else None
        else match r2 with
        | [] => None
        | b3 :: r3 =>
          if between 0xF0 0xF4 b0 then
            let ok1 := if b0 =? 0xF0 then between 0x90 0xBF b1
                       else if b0 =? 0xF4 then between 0x80 0x8F b1
                       else is_cont b1 in
            if ok1 && is_cont b2 && is_cont b3
            then option_map (cons ((b0 - 0xF0) * 262144 + (b1 - 0x80) * 4096
                                   + (b2 - 0x80) * 64 + (b3 - 0x80))) (utf8_decode r3)
            else None
          else None
        end
      end
    end
  end.

(** [char::is_whitespace] (the Unicode White_Space property). *)
Definition is_ws (c : char) : bool :=
  between 9 13 c || (c =? 32) || (c =? 133) || (c =? 160) || (c =? 5760)
  || between 8192 8202 c || (c =? 8232) || (c =? 8233) || (c =? 8239)
  || (c =? 8287) || (c =? 12288).

(** [str::trim_start], [trim_end], [trim]. *)
Fixpoint drop_while (p : char -> bool) (s : str) : str :=
  match s with
  | [] => []
  | c :: r => if p c then drop_while p r else s
  end.
Definition trim_start (s : str) : str := drop_while is_ws s.
Definition trim_end (s : str) : str := rev (drop_while is_ws (rev s)).
Definition trim (s : str) : str := trim_end (trim_start s).

(** [str::split(char)]: always at least one piece. *)
Fixpoint split (c : char) (s : str) : list str :=
  match s with
  | [] => [[]]
  | x :: r =>
    if x =? c then [] :: split c r
    else match split c r with
         | p :: ps => (x :: p) :: ps
         | [] => [[x]]
         end
  end.

(** Drop the last piece if it is empty. *)
Fixpoint drop_last_empty (l : list str) : list str :=
  match l with
  | [] => []
  | [[]] => []
  | x :: r => x :: drop_last_empty r
  end.

(** [str::split_terminator(char)]. *)
Definition split_terminator (c : char) (s : str) : list str := drop_last_empty (split c s).

(** [\[String\]::join(sep)]. *)
Fixpoint join (sep : str) (l : list str) : str :=
  match l with
  | [] => []
  | [x] => x
  | x :: r => x ++ sep ++ join sep r
  end.

(** [str::split_once(char)]; also [find] followed by slicing around it. *)
Fixpoint split_once (c : char) (s : str) : option (str * str) :=
  match s with
  | [] => None
  | x :: r =>
    if x =? c then Some ([], r)
    else match split_once c r with
         | Some (a, b) => Some (x :: a, b)
         | None => None
         end
  end.

(** ASCII case mapping.  [str::to_lowercase] is used by the code only on
    header names; the model maps ASCII letters and leaves other characters
    (simplification: non-ASCII letters are not folded). *)
Definition is_upper (c : char) : bool := between 65 90 c.
Definition is_lower (c : char) : bool := between 97 122 c.
Definition is_digit (c : char) : bool := between 48 57 c.
Definition to_lower_char (c : char) : char := if is_upper c then c + 32 else c.
Definition to_lower (s : str) : str := map to_lower_char s.

(** [char::to_digit(16)]. *)
Definition hex_val (c : char) : option N :=
  if is_digit c then Some (c - 48)
  else if between 97 102 c then Some (c - 87)
  else if between 65 70 c then Some (c - 55)
  else None.

(** Digits of [uN::from_str_radix(_, 16)]: error on a non-digit or when the
    value does not fit below [bound]. *)
Fixpoint hex_digits (bound : N) (acc : N) (s : str) : option N :=
  match s with
  | [] => Some acc
  | c :: r =>
    match hex_val c with
    | None => None
    | Some d => let v := acc * 16 + d in
                if v <? bound then hex_digits bound v r else None
    end
  end.

(** [uN::from_str_radix(s, 16)] with [bound = 2^bits]: the empty string and a
    lone sign are errors; one leading '+' is accepted. *)
Definition parse_hex (bound : N) (s : str) : option N :=
  match s with
  | [] => None
  | [c] => if (c =? 43) || (c =? 45) then None else hex_digits bound 0 s
  | c :: r => if c =? 43 then hex_digits bound 0 r else hex_digits bound 0 s
  end.

(** Lower-case hexadecimal digit. *)
Definition hex_char (d : N) : char := if d <? 10 then 48 + d else 87 + d.
Definition hex_char_upper (d : N) : char := if d <? 10 then 48 + d else 55 + d.

(** The [w] lowest hexadecimal digits of [v], most significant first: Rust's
    [{:0wx}] whenever [v < 16^w]. *)
Fixpoint hex_pad (w : nat) (v : N) : str :=
  match w with
  | O => []
  | S w' => hex_pad w' (v / 16) ++ [hex_char (v mod 16)]
  end.

(** Decimal digits of [uN::from_str] (radix 10). *)
Fixpoint dec_digits (bound : N) (acc : N) (s : str) : option N :=
  match s with
  | [] => Some acc
  | c :: r =>
    if is_digit c then
      let v := acc * 10 + (c - 48) in
      if v <? bound then dec_digits bound v r else None
    else None
  end.
Definition parse_dec (bound : N) (s : str) : option N :=
  match s with
  | [] => None
  | [c] => if (c =? 43) || (c =? 45) then None else dec_digits bound 0 s
  | c :: r => if c =? 43 then dec_digits bound 0 r else dec_digits bound 0 s
  end.
