(** Model of /repo/schemars/src/_private/mod.rs: the helpers the derive macro and the built-in
    implementations call on schemas.

    A [&mut Schema] argument becomes an argument and a result. [Schema]s are booleans or objects
    (C06), so [ensure_object] does not panic; on other values the functions here return the value
    unchanged. *)
From Coq Require Import String Ascii List ZArith Bool Lia.
From Verif Require Import Json SchemaApi Transform.
Import ListNotations.
Open Scope string_scope.
Open Scope list_scope.

(** [schema.get(k).and_then(Value::as_str) == Some(s)] *)
Definition get_is_str (k s : string) (v : json) : bool :=
  match s_get k v with Some (JStr x) => String.eqb x s | _ => false end.
(** [schema.get(k).and_then(Value::as_bool) == Some(false)] *)
Definition get_is_false (k : string) (v : json) : bool :=
  match s_get k v with Some (JBool false) => true | _ => false end.

(** mod.rs:149-166 [AllowUnknownProperties]; [did_modify] is the state of the transform. The
    recursion on immediate subschemas is bounded by the depth of the schema. *)
Fixpoint allow_unknown_n (n : nat) (s : json) (did : bool) : json * bool :=
  match n with
  | O => (s, did)
  | S n' =>
      let '(s1, d1) := if get_is_false "additionalProperties" s
                       then (fst (s_remove "additionalProperties" s), true) else (s, did) in
      let '(s2, d2) := if get_is_false "unevaluatedProperties" s1
                       then (fst (s_remove "unevaluatedProperties" s1), true) else (s1, d1) in
      transform_immediate_subschemas_st (allow_unknown_n n') s2 d2
  end.
Definition allow_unknown (s : json) : json * bool := allow_unknown_n (depth s) s false.

(** mod.rs:442-446 *)
Definition immediate_keys : list string := ["if"; "allOf"; "anyOf"; "oneOf"; "$ref"].
Definition contains_immediate_subschema (m : map_t) : bool :=
  existsb (fun k => mhas k m) immediate_keys.

(** mod.rs:429-440 [normalise_additional_unevaluated_properties]. [ap.into()] converts the
    [Option<Value>] returned by [remove], which is [Some] here. *)
Definition normalise (m1 m2 : map_t) : map_t :=
  match mget "additionalProperties" m1 with
  | Some ap =>
      if mhas "unevaluatedProperties" m2 || contains_immediate_subschema m2
      then mset "unevaluatedProperties" ap (mdel "additionalProperties" m1)
      else m1
  | None => m1
  end.

(** mod.rs:358-393 [flatten_property], for keys other than [oneOf]/[anyOf] (the recursive call is
    always for [allOf]). *)
Definition flatten_plain (m1 : map_t) (key : string) (v2 : json) : map_t :=
  match mget key m1 with
  | None => mset key v2 m1
  | Some v1 =>
      if mem key ["required"; "allOf"] then
        match v1, v2 with
        | JArr a1, JArr a2 => mset key (JArr (a1 ++ a2)) m1
        | _, _ => m1
        end
      else if mem key ["properties"; "patternProperties"] then
        match v1, v2 with
        | JObj o1, JObj o2 => mset key (JObj (mappend o1 o2)) m1
        | _, _ => m1
        end
      else m1
  end.

Definition flatten_property (m1 : map_t) (key : string) (v2 : json) : map_t :=
  if mem key ["oneOf"; "anyOf"] then
    match mget key m1 with
    | None => mset key v2 m1
    | Some v1 => flatten_plain (mdel key m1) "allOf" (JArr [JObj [(key, v1)]; JObj [(key, v2)]])
    end
  else flatten_plain m1 key v2.

(** mod.rs:357-427 [flatten] *)
Definition flatten (s other : json) : json :=
  match other with
  | JBool false => s
  | JBool true =>
      match s with
      | JObj m =>
          if negb (mhas "additionalProperties" m) && negb (mhas "unevaluatedProperties" m) then
            JObj (mset (if contains_immediate_subschema m then "unevaluatedProperties"
                        else "additionalProperties") (JBool true) m)
          else s
      | _ => s
      end
  | JObj m2 =>
      let m1 := normalise (ensure_obj s) m2 in
      let m2' := normalise m2 m1 in
      JObj (fold_left (fun m kv => flatten_property m (fst kv) (snd kv)) m2' m1)
  | _ => s
  end.

(** mod.rs:118-140 [remove_unit_variants]: the changed schema and the removed [enum] *)
Definition remove_unit_variants (s : json) : json * option (list json) :=
  let '(s1, e) :=
    if get_is_str "type" "string" s then
      match s_remove "enum" s with
      | (s', Some (JArr a)) => (fst (s_remove "type" s'), Some a)
      | (s', _) => (s', None)
      end
    else (s, None) in
  match e with
  | Some a => (s1, Some a)
  | None =>
      match s_get "oneOf" s1 with
      | Some (JArr (first :: rest)) =>
          if is_schema first && get_is_str "type" "string" first then
            match s_remove "enum" first with
            | (_, Some (JArr a)) => (fst (s_get_mut_set "oneOf" (JArr rest) s1), Some a)
            | (first', _) => (fst (s_get_mut_set "oneOf" (JArr (first' :: rest)) s1), None)
            end
          else (s1, None)
      | _ => (s1, None)
      end
  end.

(** mod.rs:69-82: the object a unit variant becomes when flattened *)
Definition flattened_unit_variant (variant : string) : json :=
  obj [("type", JStr "object");
       ("properties", JObj [(variant, JObj [("type", JStr "null")])]);
       ("required", JArr [JStr variant])].

(** mod.rs:50-146 [json_schema_for_flatten], after the call of the type's implementation *)
Definition for_flatten (s : json) (is_optional : bool) : json :=
  let '(s1, uv) := remove_unit_variants s in
  let s2 :=
    match uv with
    | Some vs =>
        let m := ensure_obj s1 in
        let m := if mhas "oneOf" m then m else mset "oneOf" (JArr []) m in
        match mget "oneOf" m with
        | Some (JArr l) =>
            JObj (mset "oneOf"
              (JArr (l ++ flat_map (fun v => match v with JStr x => [flattened_unit_variant x] | _ => [] end) vs)) m)
        | _ => JObj m
        end
    | None => s1
    end in
  let s3 :=
    if is_optional then
      let s := fst (s_remove "required" s2) in
      let '(s, one) := s_remove "oneOf" s in
      let s := match one with
               | Some o => flatten s (JObj [("anyOf", JArr [JObj [("oneOf", o)]; JObj []])])
               | None => s
               end in
      match s_get "anyOf" s with
      | Some (JArr l) =>
          if existsb (json_eqb (JObj [])) l then s
          else fst (s_get_mut_set "anyOf" (JArr (l ++ [JObj []])) s)
      | _ => s
      end
    else s2 in
  fst (allow_unknown s3).

(** mod.rs:16-47 [json_schema_for_internally_tagged_enum_newtype_variant]: the inlined schema, and
    whether it is used (otherwise [subschema_for] is called). *)
Definition for_internal_newtype (inline inline_all : bool) (s : json) : json * bool :=
  let '(s', did) :=
    transform_immediate_subschemas_st (allow_unknown_n (depth s)) s false in
  (s', inline || inline_all || get_is_str "type" "null" s'
       || get_is_false "additionalProperties" s' || get_is_false "unevaluatedProperties" s' || did).

(** mod.rs:201-206 [new_unit_enum_variant] *)
Definition new_unit_enum_variant (variant : string) : json :=
  obj [("type", JStr "string"); ("const", JStr variant)].

(** mod.rs:246-257 [new_externally_tagged_enum_variant] *)
Definition new_externally_tagged_enum_variant (variant : string) (sub : json) : json :=
  obj [("type", JStr "object");
       ("properties", JObj [(variant, sub)]);
       ("required", JArr [JStr variant]);
       ("additionalProperties", JBool false)].

(** [obj.entry(k).or_insert(d)] followed by an update of the entry *)
Definition entry_update (k : string) (d : json) (f : json -> json) (m : map_t) : map_t :=
  let m' := if mhas k m then m else mset k d m in
  mupd k f m'.

Definition in_obj (f : map_t -> map_t) (v : json) : json :=
  match v with JObj m => JObj (f m) | _ => v end.
Definition in_arr (f : list json -> list json) (v : json) : json :=
  match v with JArr l => JArr (f l) | _ => v end.

(** mod.rs:260-296 [apply_internal_enum_variant_tag] *)
Definition apply_internal_tag (tag variant : string) (deny_unknown : bool) (s : json) : json :=
  let m := ensure_obj s in
  let is_unit := match mget "type" m with Some (JStr x) => String.eqb x "null" | _ => false end in
  let m := mset "type" (JStr "object") m in
  let m := entry_update "properties" (JObj [])
             (in_obj (mset tag (obj [("type", JStr "string"); ("const", JStr variant)]))) m in
  let m := entry_update "required" (JArr []) (in_arr (fun l => JStr tag :: l)) m in
  JObj (if deny_unknown && is_unit then entry_update "additionalProperties" (JBool false) (fun x => x) m
        else m).

(** mod.rs:298-322 [insert_object_property] *)
Definition insert_object_property (s : json) (key : string) (is_optional : bool) (sub : json) : json :=
  let m := entry_update "properties" (JObj []) (in_obj (mset key sub)) (ensure_obj s) in
  JObj (if is_optional then m
        else entry_update "required" (JArr []) (in_arr (fun l => l ++ [JStr key])) m).

(** [schema.insert(k, v)] *)
Definition insert (k : string) (v : json) (s : json) : json := JObj (mset k v (ensure_obj s)).

(** mod.rs:324-333 [insert_metadata_property_if_nonempty] *)
Definition insert_metadata (s : json) (key value : string) : json :=
  if String.eqb value "" then s else insert key (JStr value) s.

(** mod.rs:335-344 [insert_validation_property] *)
Definition insert_validation (s : json) (required_type key : string) (value : json) : json :=
  if has_type required_type s || (String.eqb required_type "number" && has_type "integer" s)
  then insert key value s else s.

(** mod.rs:351-355 [apply_inner_validation] *)
Definition apply_inner_validation (s : json) (f : json -> json) : json :=
  match s_get "items" s with
  | Some i => if is_schema i then fst (s_get_mut_set "items" (f i) s) else s
  | None => s
  end.

(** json_schema_impls/core.rs: the schema of [()] *)
Definition unit_schema : json := obj [("type", JStr "null")].

(** mod.rs:448-508 [allow_null] *)
Definition is_null_schema (v : json) : bool := is_schema v && has_type "null" v.

Definition allow_null (s : json) : json :=
  match s with
  | JObj m =>
      if Nat.eqb (List.length m) 1
         && match mget "anyOf" m with Some (JArr a) => existsb is_null_schema a | _ => false end
      then s
      else if contains_immediate_subschema m then obj [("anyOf", JArr [s; unit_schema])]
      else
        let m1 :=
          match mget "type" m with
          | Some (JArr l) =>
              if existsb (json_eqb (JStr "null")) l then m else mset "type" (JArr (l ++ [JStr "null"])) m
          | Some (JStr x) =>
              if String.eqb x "null" then m else mset "type" (JArr [JStr x; JStr "null"]) m
          | _ => m
          end in
        match mget "const" m1 with
        | Some c =>
            let m2 := mdel "const" m1 in
            JObj (if is_null c then m2 else mset "enum" (JArr [c; JNull]) m2)
        | None =>
            match mget "enum" m1 with
            | Some (JArr e) =>
                if existsb (json_eqb JNull) e then JObj m1 else JObj (mset "enum" (JArr (e ++ [JNull])) m1)
            | _ => JObj m1
            end
        end
  | JBool false => unit_schema
  | _ => s
  end.
