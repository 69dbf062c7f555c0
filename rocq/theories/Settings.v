(** MODEL: the ready-made settings, schemars/src/generate.rs:73-198. *)
From Coq Require Import String List Bool.
From Verif Require Import Json Transform Generate.
Import ListNotations.
Open Scope string_scope.

Section Settings.
Context {St : Type}.

(** A transform without state of its own (transform.rs: all the transforms of schemars) *)
Definition pure (T : json -> json) (s : json) (st : St) : json * St := (T s, st).

(** generate.rs:76-90 [SchemaSettings::draft07]; The meta schemas are in consts.rs:5-27.
    [untagged_enum_variant_titles] is modelled in Titles.v. *)
Definition draft07 : settings St :=
  Settings "/definitions" (Some "http://json-schema.org/draft-07/schema#")
    [pure replace_uneval; pure remove_ref_siblings; pure replace_prefix_items] false Deserialize.

(** generate.rs:94-104 [SchemaSettings::draft2019_09] *)
Definition draft2019_09 : settings St :=
  Settings "/$defs" (Some "https://json-schema.org/draft/2019-09/schema") [pure replace_prefix_items] false Deserialize.

(** generate.rs:107-117 [SchemaSettings::draft2020_12], also the default (generate.rs:66-71) *)
Definition draft2020_12 : settings St :=
  Settings "/$defs" (Some "https://json-schema.org/draft/2020-12/schema") [] false Deserialize.

(** generate.rs:121-142 [SchemaSettings::openapi3]. [AddNullable::default()] removes the null type
    and adds "const": null (transform.rs). *)
Definition openapi3 : settings St :=
  Settings "/components/schemas" (Some "https://spec.openapis.org/oas/3.0/schema/2024-10-18#/definitions/Schema")
    [pure replace_uneval; pure (replace_bool true); pure (add_nullable true true); pure remove_ref_siblings;
     pure set_single_example; pure replace_const; pure replace_prefix_items] false Deserialize.

(** generate.rs:170-174 [with_transform] *)
Definition with_transform (T : json -> St -> json * St) (s : settings St) : settings St :=
  Settings (s_path s) (s_meta s) (s_transforms s ++ [T])%list (s_inline s) (s_contract s).

(** generate.rs:184-195 [for_deserialize], [for_serialize] *)
Definition for_deserialize (s : settings St) : settings St :=
  Settings (s_path s) (s_meta s) (s_transforms s) (s_inline s) Deserialize.
Definition for_serialize (s : settings St) : settings St :=
  Settings (s_path s) (s_meta s) (s_transforms s) (s_inline s) Serialize.

(** [with(|s| s.inline_subschemas = b)] (generate.rs:163-167) *)
Definition with_inline (b : bool) (s : settings St) : settings St :=
  Settings (s_path s) (s_meta s) (s_transforms s) b (s_contract s).
End Settings.
