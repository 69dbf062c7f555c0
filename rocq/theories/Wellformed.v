(** SPECIFICATION: well-formed JSON Schemas.

    Each keyword that the generator may use and the shape of its value, written from the
    meta-schemas of JSON Schema draft 2020-12 (core, applicator, unevaluated, validation, format and
    meta-data vocabularies). A keyword of the specification that is not listed here ("if",
    "contains", "dependentSchemas", "$dynamicRef", ...) is not allowed at all; a key that is not a
    keyword is. *)
From Coq Require Import String List ZArith Bool.
From Verif Require Import Json.
Import ListNotations.
Open Scope string_scope.

Definition simple_types : list string := ["null"; "boolean"; "object"; "array"; "number"; "string"; "integer"].

(** The keywords of draft 2020-12 and those of earlier drafts and of OpenAPI 3.0 that it dropped *)
Definition vocabulary : list string :=
  ["$id"; "$schema"; "$ref"; "$anchor"; "$dynamicRef"; "$dynamicAnchor"; "$recursiveRef"; "$recursiveAnchor"; "$vocabulary"; "$comment"; "$defs";
   "prefixItems"; "items"; "contains"; "additionalProperties"; "properties"; "patternProperties"; "dependentSchemas"; "propertyNames";
   "if"; "then"; "else"; "allOf"; "anyOf"; "oneOf"; "not"; "unevaluatedItems"; "unevaluatedProperties";
   "type"; "const"; "enum"; "multipleOf"; "maximum"; "exclusiveMaximum"; "minimum"; "exclusiveMinimum"; "maxLength"; "minLength"; "pattern";
   "maxItems"; "minItems"; "uniqueItems"; "maxContains"; "minContains"; "maxProperties"; "minProperties"; "required"; "dependentRequired";
   "format"; "contentEncoding"; "contentMediaType"; "contentSchema";
   "title"; "description"; "default"; "deprecated"; "readOnly"; "writeOnly"; "examples";
   "definitions"; "additionalItems"; "dependencies"; "nullable"; "example"; "discriminator"].

(** Annotations *)
Inductive note : string -> json -> Prop :=
| note_text k s : In k ["$comment"; "title"; "description"] -> note k (JStr s)
| note_flag k b : In k ["deprecated"; "readOnly"; "writeOnly"] -> note k (JBool b)
| note_default x : note "default" x
| note_examples l : note "examples" (JArr l)
| note_other k x : ~ In k vocabulary -> note k x.

(** [keyword W k x]: [x] is a proper value of the keyword [k], where [W] says of the schemas in [x]
    that they are well-formed. *)
Inductive keyword (W : json -> Prop) : string -> json -> Prop :=
| kw_schema k s : In k ["not"; "items"; "additionalProperties"; "unevaluatedProperties"] -> W s -> keyword W k s
| kw_schemas k l : In k ["allOf"; "anyOf"; "oneOf"; "prefixItems"] -> l <> [] -> (forall s, In s l -> W s) -> keyword W k (JArr l)
| kw_named k p : In k ["properties"; "patternProperties"; "$defs"; "definitions"] -> (forall n s, In (n, s) p -> W s) -> keyword W k (JObj p)
| kw_type t : In t simple_types -> keyword W "type" (JStr t)
| kw_types ts : ts <> [] -> NoDup ts -> (forall t, In t ts -> In t simple_types) -> keyword W "type" (JArr (map JStr ts))
| kw_enum l : l <> [] -> keyword W "enum" (JArr l)
| kw_const x : keyword W "const" x
| kw_required ns : keyword W "required" (JArr (map JStr ns))
| kw_number k n : In k ["minimum"; "maximum"; "exclusiveMaximum"] -> keyword W k (JNum n)
| kw_count k n : In k ["minItems"; "maxItems"; "minLength"; "maxLength"] -> keyword W k (JNum (NInt (Z.of_nat n)))
| kw_unique b : keyword W "uniqueItems" (JBool b)
| kw_text k s : In k ["$ref"; "$schema"; "format"; "pattern"] -> keyword W k (JStr s)
| kw_note k x : note k x -> keyword W k x.

(** The keywords "type", "enum" and "const" of one schema do not contradict each other. *)
Record coherent (m : map_t) : Prop := {
  co_strings : mget "type" m = Some (JStr "string") -> forall l, mget "enum" m = Some (JArr l) -> forall x, In x l -> exists s, x = JStr s;
  co_one : mget "const" m = None \/ mget "enum" m = None;
  co_null : mget "type" m = Some (JStr "null") \/ mget "type" m = Some (JArr [JStr "null"]) -> mget "const" m = None /\ mget "enum" m = None }.

(** Well-formed schemas that use none of the keywords [K]. The keys of an object are distinct, and in
    order as in every serde_json map (Json.v). *)
Inductive wellformed (K : list string) : json -> Prop :=
| wf_bool b : wellformed K (JBool b)
| wf_object m : sorted_keys (map fst m) = true -> (forall k x, In (k, x) m -> keyword (wellformed K) k x /\ ~ In k K) -> coherent m -> wellformed K (JObj m).
