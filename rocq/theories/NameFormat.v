(** Model of /repo/schemars_derive/src/name.rs and of the part of lib.rs:98-115 that decides how
    [schema_name] is computed from a #[schemars(rename = "...")] attribute. *)
From Coq Require Import String Ascii List Bool.
From Verif Require Import Json.
Import ListNotations.
Open Scope string_scope.

Definition open_brace : ascii := "{"%char.
Definition close_brace : ascii := "}"%char.

(** [str::contains(char)] *)
Fixpoint contains (c : ascii) (s : string) : bool :=
  match s with EmptyString => false | String a t => Ascii.eqb a c || contains c t end.

(** [str::replace] of the doubled character by nothing: matches are found from the left and do not
    overlap. (The tests [contains("{{")] before the calls make no difference.) *)
Fixpoint remove_pairs (c : ascii) (s : string) : string :=
  match s with
  | EmptyString => EmptyString
  | String a t =>
      match t with
      | EmptyString => String a EmptyString
      | String b u => if Ascii.eqb a c && Ascii.eqb b c then remove_pairs c u else String a (remove_pairs c t)
      end
  end.

(** [str::split(char)] *)
Fixpoint split (c : ascii) (s : string) : string * list string :=
  match s with
  | EmptyString => (EmptyString, [])
  | String a t => let '(h, l) := split c t in
      if Ascii.eqb a c then (EmptyString, h :: l) else (String a h, l)
  end.
(** [str::split_once(char)] *)
Fixpoint split_once (c : ascii) (s : string) : option (string * string) :=
  match s with
  | EmptyString => None
  | String a t =>
      if Ascii.eqb a c then Some (EmptyString, t)
      else match split_once c t with Some (h, r) => Some (String a h, r) | None => None end
  end.

Inductive name_error :=
| UnmatchedClose                     (* unmatched `}` found *)
| NotAParam (param : string)         (* expected generic param, found `param` *)
| UnmatchedOpen.                     (* found `{` without matching `}` *)

Definition is_param (params : list string) (p : string) : bool := existsb (String.eqb p) params.

(** name.rs:46-73: one segment; the type params found and the errors *)
Definition segment (consts types : list string) (s : string) : list string * list name_error :=
  match split_once close_brace s with
  | Some (param, rest) =>
      let e := if contains close_brace rest then [UnmatchedClose] else [] in
      if is_param types param then ([param], e)
      else if is_param consts param then ([], e)
      else ([], e ++ [NotAParam param])%list
  | None => ([], [UnmatchedOpen])
  end.

(** name.rs:5-77 [get_rename_format_type_params]. The set of type params is a list here. *)
Definition get_rename_format_type_params (consts types : list string) (s : string) : list string * list name_error :=
  if negb (contains open_brace s) then ([], [])
  else
    let '(first, rest) := split open_brace (remove_pairs close_brace (remove_pairs open_brace s)) in
    let e := if contains close_brace first then [UnmatchedClose] else [] in
    let rs := map (segment consts types) rest in
    (flat_map fst rs, e ++ flat_map snd rs)%list.

(** lib.rs:98-115: is [schema_name] the text of the attribute itself, or [format!] of it with the
    given named arguments? (const params are taken from the scope by [format!]) *)
Inductive naming := Verbatim (s : string) | Formatted (template : string) (args : list string).
Definition schema_name_expr (consts types : list string) (s : string) : naming :=
  if negb (contains open_brace s) then Verbatim s
  else Formatted s (fst (get_rename_format_type_params consts types s)).
