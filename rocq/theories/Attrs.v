(** Model of /repo/schemars_derive/src/attr/schemars_to_serde.rs: how the items of #[schemars(...)]
    and #[serde(...)] attributes are merged into the #[serde(...)] attribute that is interpreted. *)
From Coq Require Import String Ascii List Bool.
From Verif Require Import Json Transform.
Import ListNotations.
Open Scope string_scope.

(** An item of an attribute: `keyword...` or `!keyword`; [i_keyword = None] for a path with several
    segments. [i_rest] is the rest of the item's tokens (its value). Models attr/custom_meta.rs
    [CustomMeta], tokens left uninterpreted. *)
Record item := Item { i_not : bool; i_keyword : option string; i_rest : string }.

(** An attribute: its path (an identifier) and, for #[serde(...)] and #[schemars(...)], its items. *)
Record attribute := Attribute { a_path : string; a_items : list item; a_tokens : string }.

(** schemars_to_serde.rs:12-42 *)
Definition serde_keywords : list string :=
  ["rename"; "rename_all"; "rename_all_fields"; "deny_unknown_fields"; "tag"; "content"; "untagged";
   "default"; "skip"; "skip_serializing"; "skip_serializing_if"; "skip_deserializing"; "flatten";
   "remote"; "transparent"; "into"; "from"; "try_from"; "bound"; "serialize_with"; "with"].
(** schemars_to_serde.rs:44-46 *)
Definition parsed_by_serde : list string := firstn (List.length serde_keywords - 2) serde_keywords.

Inductive attr_error :=
| Duplicate (keyword : string)   (* duplicate schemars attribute item `!k` *)
| Both (keyword : string)        (* cannot contain both `k` and `!k` *)
| Useless (keyword : string).    (* useless `!k` *)

(** attr/mod.rs [get_meta_items]: the items of all attributes with a given path (parse errors are
    not modelled) *)
Definition meta_items (path : string) (attrs : list attribute) : list item :=
  flat_map (fun a => if String.eqb (a_path a) path then a_items a else []) attrs.

Record merge := Merge {
  g_effective : list item;          (* effective_serde_meta *)
  g_unset : list string;            (* keys of unset_meta *)
  g_names : list string;            (* schemars_meta_names *)
  g_errors : list attr_error
}.

(** schemars_to_serde.rs:85-106: the loop over the schemars items *)
Definition schemars_step (g : merge) (i : item) : merge :=
  match i_keyword i with
  | None => g
  | Some k =>
      if i_not i then
        if mem k (g_unset g)
        then Merge (g_effective g) (g_unset g) (g_names g) (g_errors g ++ [Duplicate k])
        else Merge (g_effective g) (g_unset g ++ [k]) (g_names g) (g_errors g)
      else if mem k parsed_by_serde
      then Merge (g_effective g ++ [i]) (g_unset g) (g_names g ++ [k]) (g_errors g)
      else g
  end.

(** schemars_to_serde.rs:117-120 *)
Definition add_skip (names : list string) : list string :=
  if mem "skip" names then names ++ ["skip_serializing"; "skip_deserializing"] else names.

(** schemars_to_serde.rs:122-137: the loop over the serde items *)
Definition serde_kept (names unset : list string) (i : item) : bool :=
  match i_keyword i with
  | None => false
  | Some k => negb (mem k names) && negb (mem k unset) && mem k serde_keywords && negb (String.eqb k "bound")
  end.
Definition serde_names (items : list item) : list string :=
  flat_map (fun i => match i_keyword i with Some k => [k] | None => [] end) items.

(** schemars_to_serde.rs:75-163 [process_attrs]; errors are in the order of the source, except that
    the map of unset keywords is iterated in order of appearance instead of sorted. *)
Definition process_attrs (attrs : list attribute) : list attribute * list attr_error :=
  let serde := filter (fun a => String.eqb (a_path a) "serde") attrs in
  let others := filter (fun a => negb (String.eqb (a_path a) "serde")) attrs in
  let g := fold_left schemars_step (meta_items "schemars" others) (Merge [] [] [] []) in
  let both := map Both (filter (fun k => mem k (g_names g)) (g_unset g)) in
  let names := add_skip (g_names g) in
  let serde_items := meta_items "serde" serde in
  let effective := (g_effective g ++ filter (serde_kept names (g_unset g)) serde_items)%list in
  let useless := map Useless (filter (fun k => negb (mem k (serde_names serde_items))) (g_unset g)) in
  ((others ++ match effective with [] => [] | _ => [Attribute "serde" effective ""] end)%list,
   (g_errors g ++ both ++ useless)%list).
