(** JSON pointers.
    - [serde_json::Value::pointer] / [pointer_mut] (serde_json 1.0.140, value/mod.rs), which
      /repo/schemars/src/schema.rs:310-317 and :348-355 delegate to;
    - [json_pointer_mut] of /repo/schemars/src/generate.rs:625-654. *)
From Coq Require Import String Ascii List ZArith NArith Bool Lia.
From Verif Require Import Json Utf8 Encoding.
Import ListNotations.
Open Scope string_scope.

(** [str::replace] of the two byte pattern [~d] by the single byte [r] (leftmost,
    non-overlapping). *)
Fixpoint replace_tilde (d r : ascii) (s : string) : string :=
  match s with
  | EmptyString => ""
  | String a s' =>
      if Ascii.eqb a "~" then
        match s' with
        | String b s'' =>
            if Ascii.eqb b d then String r (replace_tilde d r s'')
            else String a (replace_tilde d r s')
        | EmptyString => String a ""
        end
      else String a (replace_tilde d r s')
  end.

(** [x.replace("~1", "/").replace("~0", "~")] (serde_json value/mod.rs; generate.rs:639-642) *)
Definition unescape (s : string) : string :=
  replace_tilde "0" "~" (replace_tilde "1" "/" s).

(** [str::parse::<usize>] on decimal digits, [parse_index] of serde_json: rejects a leading '+'
    and a leading '0' unless the token is exactly "0". Numbers too large for usize are out of
    bounds of any array anyway; here digits are read without bound. *)
Fixpoint digits_val (acc : N) (s : string) : option N :=
  match s with
  | EmptyString => Some acc
  | String a s' => if in_range 48 57 a then digits_val (10 * acc + (byte a - 48)) s' else None
  end.

Definition parse_index (s : string) : option N :=
  match s with
  | EmptyString => None
  | String a s' =>
      if Ascii.eqb a "0" && negb (String.eqb s' "") then None else digits_val 0 s
  end.

(** One step of [Value::pointer]: the child selected by an unescaped token. *)
Definition child (tok : string) (v : json) : option json :=
  match v with
  | JObj m => mget tok m
  | JArr l => match parse_index tok with Some i => nth_error l (N.to_nat i) | None => None end
  | _ => None
  end.

(** The reference tokens of a pointer: [pointer.split('/').skip(1).map(unescape)];
    [None] when the pointer is non-empty and does not start with '/'. *)
Definition tokens (p : string) : option (list string) :=
  match p with
  | EmptyString => Some []
  | String a _ =>
      if Ascii.eqb a "/" then Some (map unescape (snd (split_on "/" p))) else None
  end.

Fixpoint walk (toks : list string) (v : json) : option json :=
  match toks with
  | [] => Some v
  | t :: ts => match child t v with Some c => walk ts c | None => None end
  end.

(** [Value::pointer] *)
Definition value_pointer (v : json) (p : string) : option json :=
  match tokens p with Some ts => walk ts v | None => None end.

(** Assigning the child selected by a token (through [pointer_mut]). *)
Fixpoint set_nth (i : nat) (x : json) (l : list json) : list json :=
  match l, i with
  | [], _ => []
  | _ :: t, O => x :: t
  | y :: t, S i' => y :: set_nth i' x t
  end.

Definition set_child (tok : string) (x : json) (v : json) : json :=
  match v with
  | JObj m => JObj (mupd tok (fun _ => x) m)
  | JArr l => match parse_index tok with
              | Some i => JArr (set_nth (N.to_nat i) x l) | None => v end
  | _ => v
  end.

(** Value::pointer_mut followed by an assignment of the target to [x]; [None] when
    [pointer_mut] returns [None]. *)
Fixpoint walk_set (toks : list string) (x : json) (v : json) : option json :=
  match toks with
  | [] => Some x
  | t :: ts =>
      match child t v with
      | Some c => match walk_set ts x c with
                  | Some c' => Some (set_child t c' v) | None => None end
      | None => None
      end
  end.

Definition value_pointer_set (v : json) (p : string) (x : json) : option json :=
  match tokens p with Some ts => walk_set ts x v | None => None end.

(** generate.rs:625-654 [json_pointer_mut] with [create_if_missing = true], followed by an
    update [f] of the target map (the code's only use appends the definitions,
    generate.rs:599-603). The second component is [false] when [json_pointer_mut] returned
    [None]; the first component is the (possibly partly extended) object. *)
Fixpoint walk_create (segs : list string) (f : map_t -> map_t) (m : map_t) : map_t * bool :=
  match segs with
  | [] => (f m, true)
  | s :: ss =>
      let m1 := if mhas s m then m else mset s (JObj []) m in
      match mget s m1 with
      | Some (JObj sub) =>
          let '(sub', ok) := walk_create ss f sub in (mupd s (fun _ => JObj sub') m1, ok)
      | _ => (m1, false)
      end
  end.

Definition json_pointer_update (m : map_t) (pointer : string) (f : map_t -> map_t)
  : map_t * bool :=
  match pointer with
  | EmptyString => (m, false)
  | String a rest =>
      if Ascii.eqb a "/" then
        if String.eqb rest "" then (f m, true)
        else let '(h, t) := split_on "/" rest in walk_create (map unescape (h :: t)) f m
      else (m, false)
  end.

(** generate.rs:614-618 [definitions_path_stripped]: drop one leading '#', then one trailing
    '/'. *)
Definition strip_prefix_hash (s : string) : string :=
  match s with String a s' => if Ascii.eqb a "#" then s' else s | _ => s end.

Fixpoint strip_suffix_slash (s : string) : string :=
  match s with
  | EmptyString => ""
  | String a EmptyString => if Ascii.eqb a "/" then "" else s
  | String a s' => String a (strip_suffix_slash s')
  end.

Definition definitions_path_stripped (path : string) : string :=
  strip_suffix_slash (strip_prefix_hash path).

(** generate.rs:589-604 [add_definitions] *)
Definition add_definitions (path : string) (m defs : map_t) : map_t :=
  match defs with
  | [] => m
  | _ => fst (json_pointer_update m (definitions_path_stripped path) (fun t => mappend t defs))
  end.
