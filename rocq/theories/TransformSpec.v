(** SPECIFICATION: the direct subschemas of a schema, written from the documentation of
    transform_subschemas (transform.rs:143-150) and independent of the model's code. *)
From Coq Require Import String List Bool.
From Verif Require Import Json SchemaApi.
Import ListNotations.
Open Scope string_scope.

(** Keywords whose value is one schema / a list of schemas / a map of schemas. *)
Definition kw_one : list string :=
  ["not"; "if"; "then"; "else"; "contains"; "additionalProperties"; "propertyNames";
   "additionalItems"; "items"].
Definition kw_list : list string := ["allOf"; "anyOf"; "oneOf"; "prefixItems"; "items"].
Definition kw_map : list string := ["properties"; "patternProperties"; "$defs"; "definitions"].

(** [direct_sub m x]: [x] is a schema (boolean or object) sitting directly below the object
    schema [m]. *)
Inductive direct_sub (m : map_t) : json -> Prop :=
| ds_one k x : In k kw_one -> In (k, x) m -> is_schema x = true -> direct_sub m x
| ds_list k l x : In k kw_list -> In (k, JArr l) m -> In x l -> is_schema x = true -> direct_sub m x
| ds_map k p n x : In k kw_map -> In (k, JObj p) m -> In (n, x) p -> is_schema x = true ->
                   direct_sub m x.

(** [P] holds of every object schema reachable through direct subschemas, [s] included. *)
Inductive everywhere (P : map_t -> Prop) : json -> Prop :=
| ew_leaf s : is_obj s = false -> everywhere P s
| ew_obj m : P m -> (forall x, direct_sub m x -> everywhere P x) -> everywhere P (JObj m).

(** [nested s x]: [x] is [s] or a direct subschema of a nested schema of [s]. *)
Inductive nested (s : json) : json -> Prop :=
| nested_self : nested s s
| nested_step m x : nested s (JObj m) -> direct_sub m x -> nested s x.
