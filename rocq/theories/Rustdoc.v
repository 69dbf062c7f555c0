(** Model of /repo/schemars/src/_private/rustdoc.rs: splitting a doc comment into title and
    description. Byte slices are strings of bytes. *)
From Coq Require Import String Ascii List Bool Arith NArith.
From Verif Require Import Utf8.
Import ListNotations.
Open Scope string_scope.

(** [u8::is_ascii_whitespace]: space, tab, line feed, form feed, carriage return *)
Definition is_ws (a : ascii) : bool :=
  existsb (fun n => Nat.eqb (nat_of_ascii a) n) [32; 9; 10; 12; 13].

(** rustdoc.rs:74-95 [trim_ascii]: the first loop, then the second, which drops bytes at the end. *)
Fixpoint trim_left (s : string) : string :=
  match s with
  | EmptyString => EmptyString
  | String a s' => if is_ws a then trim_left s' else s
  end.
Fixpoint trim_right (s : string) : string :=
  match s with
  | EmptyString => EmptyString
  | String a s' =>
      match trim_right s' with
      | EmptyString => if is_ws a then EmptyString else String a EmptyString
      | t => String a t
      end
  end.
Definition trim_ascii (s : string) : string := trim_right (trim_left s).

(** rustdoc.rs:21-31 [strchr] *)
Fixpoint strchr (s : string) (c : ascii) : option nat :=
  match s with
  | EmptyString => None
  | String a s' => if Ascii.eqb a c then Some 0 else option_map S (strchr s' c)
  end.

(** rustdoc.rs:33-57 [subslice]: drops [len - end] bytes at the end (panicking on underflow), then
    [start] at the front. *)
Fixpoint drop (n : nat) (s : string) : string :=
  match n, s with
  | S n', String _ s' => drop n' s'
  | _, _ => s
  end.
Fixpoint take (n : nat) (s : string) : string :=
  match n, s with
  | S n', String a s' => String a (take n' s')
  | _, _ => EmptyString
  end.
Definition subslice (s : string) (start stop : nat) : option string :=
  if Nat.ltb (String.length s) stop then None else Some (drop start (take stop s)).

(** rustdoc.rs:66-72 [trim_start] *)
Fixpoint trim_start (s : string) (c : ascii) : string :=
  match s with
  | EmptyString => EmptyString
  | String a s' => if Ascii.eqb a c then trim_start s' c else s
  end.

(** rustdoc.rs:59-64 [to_utf8]; the panic is [None]. *)
Definition to_utf8 (s : string) : option string := if utf8_valid s then Some s else None.

(** rustdoc.rs:1-19 [get_title_and_description]; [None] is a panic. *)
Definition get_title_and_description (doc : string) : option (string * string) :=
  let bytes := trim_ascii doc in
  match bytes with
  | String "#"%char _ =>
      let e := match strchr bytes "010" with Some i => i | None => String.length bytes end in
      match subslice bytes 0 e, subslice bytes e (String.length bytes) with
      | Some t, Some d =>
          match to_utf8 (trim_ascii (trim_start t "#")), to_utf8 (trim_ascii d) with
          | Some t', Some d' => Some (t', d')
          | _, _ => None
          end
      | _, _ => None
      end
  | _ => match to_utf8 bytes with Some d => Some ("", d) | None => None end
  end.
