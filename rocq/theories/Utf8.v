(** UTF-8 validity of byte strings: what [core::str::from_utf8] / [String::from_utf8] accept
    (used by /repo/schemars/src/encoding.rs:65). This is the table of the Unicode standard
    (Table 3-7, well-formed UTF-8 byte sequences), as implemented by Rust's core library. *)
From Coq Require Import String Ascii List ZArith NArith Bool Lia.
Open Scope string_scope.

Definition byte (a : ascii) : N := N_of_ascii a.
Definition in_range (lo hi : N) (a : ascii) : bool := N.leb lo (byte a) && N.leb (byte a) hi.

(** continuation byte 80..BF *)
Definition cont (a : ascii) : bool := in_range 128 191 a.

Fixpoint utf8_valid (s : string) : bool :=
  match s with
  | EmptyString => true
  | String a s1 =>
      if in_range 0 127 a then utf8_valid s1
      else if in_range 194 223 a then
        match s1 with String b s2 => cont b && utf8_valid s2 | _ => false end
      else if in_range 224 224 a then
        match s1 with
        | String b (String c s3) => in_range 160 191 b && cont c && utf8_valid s3 | _ => false end
      else if in_range 225 236 a || in_range 238 239 a then
        match s1 with
        | String b (String c s3) => cont b && cont c && utf8_valid s3 | _ => false end
      else if in_range 237 237 a then
        match s1 with
        | String b (String c s3) => in_range 128 159 b && cont c && utf8_valid s3 | _ => false end
      else if in_range 240 240 a then
        match s1 with
        | String b (String c (String d s4)) => in_range 144 191 b && cont c && cont d && utf8_valid s4
        | _ => false end
      else if in_range 241 243 a then
        match s1 with
        | String b (String c (String d s4)) => cont b && cont c && cont d && utf8_valid s4
        | _ => false end
      else if in_range 244 244 a then
        match s1 with
        | String b (String c (String d s4)) => in_range 128 143 b && cont c && cont d && utf8_valid s4
        | _ => false end
      else false
  end.

(** All bytes of the string satisfy [p]. *)
Fixpoint sforall (p : ascii -> bool) (s : string) : bool :=
  match s with EmptyString => true | String a s' => p a && sforall p s' end.
