(** Model of /repo/schemars/src/encoding.rs *)
From Coq Require Import String Ascii List ZArith NArith Bool Lia.
From Verif Require Import Json Utf8.
Import ListNotations.
Open Scope string_scope.

(** encoding.rs:8-19 [needs_encoding] *)
Definition needs_encoding (a : ascii) : bool :=
  if (Ascii.eqb a "~" || Ascii.eqb a "/")%char then true
  else if (Ascii.eqb a "!" || Ascii.eqb a "$")%char || in_range 38 59 a (* '&'..=';' *)
          || Ascii.eqb a "=" || in_range 63 90 a (* '?'..='Z' *)
          || Ascii.eqb a "_" || in_range 97 122 a (* 'a'..='z' *)
  then false
  else true.

(** one upper-case hexadecimal digit of a value below 16 ([{:X}] formatting) *)
Definition hexU (n : N) : ascii :=
  if N.ltb n 10 then ascii_of_N (48 + n) else ascii_of_N (55 + n).

(** encoding.rs:30 [format!("%{byte:2X}")]: hexadecimal, minimum width 2, padded on the left
    with SPACES (the format string has no [0] flag). *)
Definition percent_byte (a : ascii) : string :=
  let n := byte a in
  if N.ltb n 16 then String "%" (String " " (String (hexU n) ""))
  else String "%" (String (hexU (n / 16)) (String (hexU (n mod 16)) "")).

(** encoding.rs:24-34 loop body *)
Definition encode_byte (a : ascii) : string :=
  if Ascii.eqb a "~" then "~0"
  else if Ascii.eqb a "/" then "~1"
  else if needs_encoding a then percent_byte a
  else String a "".

Fixpoint encode_loop (s : string) : string :=
  match s with
  | EmptyString => ""
  | String a s' => encode_byte a ++ encode_loop s'
  end.

(** encoding.rs:7-40 [encode_ref_name] *)
Definition encode_ref_name (name : string) : string :=
  if negb (sforall (fun a => negb (needs_encoding a)) name)
  then encode_loop name
  else name.

(** [str::split(char)] for an ASCII separator: non-empty list of segments. *)
Fixpoint split_on (c : ascii) (s : string) : string * list string :=
  match s with
  | EmptyString => ("", [])
  | String a s' =>
      let '(h, t) := split_on c s' in
      if Ascii.eqb a c then ("", h :: t) else (String a h, t)
  end.

(** [char::to_digit(16)] on one byte *)
Definition hexval (a : ascii) : option N :=
  if in_range 48 57 a then Some (byte a - 48)%N
  else if in_range 65 70 a then Some (byte a - 55)%N
  else if in_range 97 102 a then Some (byte a - 87)%N
  else None.

(** [u8::from_str_radix(p, 16)] for a two byte [p] (core::num): one leading '+' is accepted,
    a leading '-' is an invalid digit for an unsigned type. *)
Definition from_str_radix16 (a b : ascii) : option ascii :=
  if Ascii.eqb a "+" then option_map ascii_of_N (hexval b)
  else match hexval a, hexval b with
       | Some x, Some y => Some (ascii_of_N (16 * x + y))
       | _, _ => None
       end.

(** encoding.rs:53-56: [segment.get(0..2)] needs two bytes and a char boundary after them
    (index 2 is a boundary when the string ends there or the next byte is not a continuation
    byte, [str::is_char_boundary]). Returns the decoded byte and the rest of the segment. *)
Definition decode_head (seg : string) : option (ascii * string) :=
  match seg with
  | String a (String b rest) =>
      let boundary := match rest with EmptyString => true | String c _ => negb (cont c) end in
      if boundary
      then match from_str_radix16 a b with Some d => Some (d, rest) | None => None end
      else None
  | _ => None
  end.

(** encoding.rs:52-63 loop over the segments after the first *)
Fixpoint decode_segments (segs : list string) : string :=
  match segs with
  | [] => ""
  | seg :: t =>
      match decode_head seg with
      | Some (d, rest) => String d (rest ++ decode_segments t)
      | None => String "%" (seg ++ decode_segments t)
      end
  end.

(** encoding.rs:45-69 [percent_decode] *)
Definition percent_decode (s : string) : option string :=
  if negb (sforall (fun a => negb (Ascii.eqb a "%")) s) then
    let '(h, t) := split_on "%" s in
    let buf := h ++ decode_segments t in
    if utf8_valid buf then Some buf else None
  else Some s.
