(** Model of /repo/schemars/src/transform.rs *)
From Coq Require Import String Ascii List ZArith Bool Lia.
From Verif Require Import Json SchemaApi.
Import ListNotations.
Open Scope string_scope.

(** How transform_subschemas treats the value of a key (transform.rs:151-196). *)
Inductive shape : Type :=
| One          (* the value is a schema *)
| Many         (* the value is an array of schemas *)
| OneOrMany    (* "items" *)
| Named        (* the value maps names to schemas *)
| Other.

(** transform.rs:151-161 *)
Definition one_keys : list string :=
  ["not"; "if"; "then"; "else"; "contains"; "additionalProperties"; "propertyNames";
   "additionalItems"].
(** transform.rs:163 *)
Definition many_keys : list string := ["allOf"; "anyOf"; "oneOf"; "prefixItems"].
(** transform.rs:186 *)
Definition named_keys : list string := ["properties"; "patternProperties"; "$defs"; "definitions"].

Definition mem (k : string) (l : list string) : bool := existsb (String.eqb k) l.

Definition shape_of (k : string) : shape :=
  if mem k one_keys then One
  else if mem k many_keys then Many
  else if String.eqb k "items" then OneOrMany
  else if mem k named_keys then Named
  else Other.

(** ** Transforms with state ([&mut self]) *)
Section Stateful.
Context {St : Type}.

(** A call [t.transform(schema)]: the new schema and the transform's new state. *)
Definition tr := json -> St -> json * St.

(** [if let Ok(subschema) = value.try_into() { t.transform(subschema) }] *)
Definition try_sub (t : tr) (v : json) (st : St) : json * St :=
  if is_schema v then t v st else (v, st).

(** Iteration in order over a container. *)
Fixpoint map_st {A} (f : A -> St -> A * St) (l : list A) (st : St) : list A * St :=
  match l with
  | [] => ([], st)
  | x :: l' =>
      let '(y, st1) := f x st in
      let '(ys, st2) := map_st f l' st1 in
      (y :: ys, st2)
  end.

Definition try_arr (t : tr) (v : json) (st : St) : json * St :=
  match v with
  | JArr l => let '(l', st') := map_st (try_sub t) l st in (JArr l', st')
  | _ => (v, st)
  end.

Definition try_obj (t : tr) (v : json) (st : St) : json * St :=
  match v with
  | JObj m =>
      let '(m', st') :=
        map_st (fun kv st => let '(x, st1) := try_sub t (snd kv) st in ((fst kv, x), st1)) m st in
      (JObj m', st')
  | _ => (v, st)
  end.

Definition sub_value (t : tr) (sh : shape) (v : json) (st : St) : json * St :=
  match sh with
  | One => try_sub t v st
  | Many => try_arr t v st
  | OneOrMany => match v with JArr _ => try_arr t v st | _ => try_sub t v st end
  | Named => try_obj t v st
  | Other => (v, st)
  end.

(** transform.rs:144-198 [transform_subschemas] *)
Definition transform_subschemas_st (t : tr) (s : json) (st : St) : json * St :=
  match s with
  | JObj m =>
      let '(m', st') :=
        map_st (fun kv st =>
                  let '(x, st1) := sub_value t (shape_of (fst kv)) (snd kv) st in
                  ((fst kv, x), st1)) m st in
      (JObj m', st')
  | _ => (s, st)
  end.

(** transform.rs:202-225 [transform_immediate_subschemas] *)
Definition immediate_shape (k : string) : shape :=
  if mem k ["if"; "then"; "else"] then One
  else if mem k ["allOf"; "anyOf"; "oneOf"] then Many
  else Other.

Definition transform_immediate_subschemas_st (t : tr) (s : json) (st : St) : json * St :=
  match s with
  | JObj m =>
      let '(m', st') :=
        map_st (fun kv st =>
                  let '(x, st1) := sub_value t (immediate_shape (fst kv)) (snd kv) st in
                  ((fst kv, x), st1)) m st in
      (JObj m', st')
  | _ => (s, st)
  end.

End Stateful.
Arguments tr : clear implicits.

(** [transform_subschemas] with a partial callback is the same loop, stopped at the first
    callback that does not return: the state is [option St] and [None] is absorbing. *)
Definition lift_none {St} (t : json -> St -> option (json * St)) : tr (option St) :=
  fun s ost =>
    match ost with
    | Some st => match t s st with Some (s', st') => (s', Some st') | None => (s, None) end
    | None => (s, None)
    end.

(** transform.rs:262-272 [RecursiveTransform]: [n] bounds the depth of the call stack; [None]
    means that the bound was reached (if [None] for every [n], the call overflows the stack). *)
Fixpoint recursive_transform {St} (n : nat) (inner : tr St) (s : json) (st : St)
  : option (json * St) :=
  match n with
  | O => None
  | S n' =>
      let '(s1, st1) := inner s st in
      let '(s2, ost) :=
        transform_subschemas_st (lift_none (recursive_transform n' inner)) s1 (Some st1) in
      match ost with Some st2 => Some (s2, st2) | None => None end
  end.

(** ** Transforms without state *)
Definition try_sub_p (t : json -> json) (v : json) : json := if is_schema v then t v else v.

Definition sub_value_p (t : json -> json) (sh : shape) (v : json) : json :=
  match sh, v with
  | One, _ => try_sub_p t v
  | Many, JArr l => JArr (map (try_sub_p t) l)
  | OneOrMany, JArr l => JArr (map (try_sub_p t) l)
  | OneOrMany, _ => try_sub_p t v
  | Named, JObj m => JObj (map (fun kv => (fst kv, try_sub_p t (snd kv))) m)
  | _, _ => v
  end.

(** [transform_subschemas] for a stateless transform (TransformProofs.subschemas_stateless shows
    that it is the same as the stateful one). *)
Definition transform_subschemas (t : json -> json) (s : json) : json :=
  match s with
  | JObj m => JObj (map (fun kv => (fst kv, sub_value_p t (shape_of (fst kv)) (snd kv))) m)
  | _ => s
  end.

(** A recursive stateless transform: [body self s]. The recursion depth is bounded by the depth
    of the value; TransformProofs shows for every transform below that
    [run_t body s = body (run_t body) s], so that the bound is never reached. *)
Fixpoint fuelled (n : nat) (body : (json -> json) -> json -> json) (s : json) : json :=
  match n with O => s | S n' => body (fuelled n' body) s end.
Definition run_t (body : (json -> json) -> json -> json) (s : json) : json :=
  fuelled (depth s) body s.

(** transform.rs:290-308 [ReplaceBoolSchemas]; [skip] is skip_additional_properties. *)
Definition replace_bool_body (skip : bool) (self : json -> json) (s : json) : json :=
  match s with
  | JObj m =>
      match (if skip then mget "additionalProperties" m else None) with
      | Some ap =>
          match transform_subschemas self (JObj (mdel "additionalProperties" m)) with
          | JObj m' => JObj (mset "additionalProperties" ap m')
          | s' => s'
          end
      | None => transform_subschemas self s
      end
  | JBool _ => JObj (ensure_obj s)
  | _ => s
  end.
Definition replace_bool (skip : bool) : json -> json := run_t (replace_bool_body skip).

(** transform.rs:321-337 [RemoveRefSiblings], after transform_subschemas. *)
Definition remove_ref_siblings_here (s : json) : json :=
  match s with
  | JObj m =>
      if Nat.ltb 1 (List.length m) then
        match mget "$ref" m with
        | Some r =>
            let m1 := mdel "$ref" m in
            match mget "allOf" m1 with
            | None => JObj (mset "allOf" (JArr [JObj [("$ref", r)]]) m1)
            | Some (JArr l) => JObj (mset "allOf" (JArr (l ++ [JObj [("$ref", r)]])) m1)
            | Some _ => JObj m1
            end
        | None => s
        end
      else s
  | _ => s
  end.
Definition remove_ref_siblings : json -> json :=
  run_t (fun self s => remove_ref_siblings_here (transform_subschemas self s)).

(** transform.rs:349-360 [SetSingleExample], after transform_subschemas. *)
Definition set_single_example_here (s : json) : json :=
  match s with
  | JObj m =>
      match mget "examples" m with
      | Some (JArr (x :: _)) => JObj (mset "example" x (mdel "examples" m))
      | _ => JObj (mdel "examples" m)
      end
  | _ => s
  end.
Definition set_single_example : json -> json :=
  run_t (fun self s => set_single_example_here (transform_subschemas self s)).

(** transform.rs:371-380 [ReplaceConstValue], after transform_subschemas. *)
Definition replace_const_here (s : json) : json :=
  match s with
  | JObj m =>
      match mget "const" m with
      | Some x => JObj (mset "enum" (JArr [x]) (mdel "const" m))
      | None => s
      end
  | _ => s
  end.
Definition replace_const : json -> json :=
  run_t (fun self s => replace_const_here (transform_subschemas self s)).

(** transform.rs:394-407 [ReplacePrefixItems], after transform_subschemas. *)
Definition replace_prefix_here (s : json) : json :=
  match s with
  | JObj m =>
      match mget "prefixItems" m with
      | Some p =>
          let m1 := mdel "prefixItems" m in
          let m2 := mset "items" p m1 in
          match mget "items" m1 with
          | Some prev => JObj (mset "additionalItems" prev m2)
          | None => JObj m2
          end
      | None => s
      end
  | _ => s
  end.
Definition replace_prefix_items : json -> json :=
  run_t (fun self s => replace_prefix_here (transform_subschemas self s)).

(** transform.rs:433-467 [AddNullable], before transform_subschemas. *)
Definition is_null_name (x : json) : bool :=
  match x with JStr t => String.eqb t "null" | _ => false end.

Definition add_nullable_here (remove_null_type add_const_null : bool) (s : json) : json :=
  match s with
  | JObj m =>
      if has_type "null" s then
        let m1 := mset "nullable" (JBool true) m in
        match mget "type" m1 with
        | Some ty =>
            let only_null := match ty with JArr l => forallb is_null_name l | _ => true end in
            if only_null then
              if add_const_null then
                let m2 := mset "const" JNull m1 in
                JObj (if remove_null_type then mdel "type" m2 else m2)
              else if remove_null_type then JObj (mset "type" (JArr []) m1)
              else JObj m1
            else if remove_null_type then
              match ty with
              | JArr l =>
                  match filter (fun t => negb (is_null_name t)) l with
                  | [t] => JObj (mset "type" t m1)
                  | l' => JObj (mset "type" (JArr l') m1)
                  end
              | _ => JObj m1
              end
            else JObj m1
        | None => JObj m1
        end
      else s
  | _ => s
  end.
Definition add_nullable (remove_null_type add_const_null : bool) : json -> json :=
  run_t (fun self s =>
           transform_subschemas self (add_nullable_here remove_null_type add_const_null s)).

(** transform.rs:512-529 [GatherPropertyNames]: the BTreeSet of names is the list of names in
    visiting order (with repetitions); transform_immediate_subschemas does not change the schema
    because the transform does not. The recursion is on the schema. *)
Fixpoint gather_names (s : json) : list string :=
  match s with
  | JObj m =>
      match mget "properties" m with Some (JObj p) => map fst p | _ => [] end
      ++ flat_map (fun kv =>
           match immediate_shape (fst kv) with
           | One => if is_schema (snd kv) then gather_names (snd kv) else []
           | Many =>
               match snd kv with
               | JArr l => flat_map (fun x => if is_schema x then gather_names x else []) l
               | _ => []
               end
           | _ => []
           end) m
  | _ => []
  end.

(** [properties.entry(name).or_insert(true)] for every name *)
Definition or_insert_true (names : list string) (p : map_t) : map_t :=
  fold_left (fun p n => if mhas n p then p else mset n (JBool true) p) names p.

(** transform.rs:479-508 [ReplaceUnevaluatedProperties], after transform_subschemas. *)
Definition replace_uneval_here (s : json) : json :=
  match s with
  | JObj m =>
      match mget "unevaluatedProperties" m with
      | Some up =>
          let m1 := mset "additionalProperties" up (mdel "unevaluatedProperties" m) in
          let names := gather_names (JObj m1) in
          match names with
          | [] => JObj m1
          | _ =>
              match mget "properties" m1 with
              | None => JObj (mset "properties" (JObj (or_insert_true names [])) m1)
              | Some (JObj p) => JObj (mset "properties" (JObj (or_insert_true names p)) m1)
              | Some _ => JObj m1
              end
          end
      | None => s
      end
  | _ => s
  end.
Definition replace_uneval : json -> json :=
  run_t (fun self s => replace_uneval_here (transform_subschemas self s)).

(** ** RestrictFormats *)
(** /repo/schemars/src/consts.rs:6-18 *)
Definition uri_draft07 : string := "http://json-schema.org/draft-07/schema#".
Definition uri_2019 : string := "https://json-schema.org/draft/2019-09/schema".
Definition uri_2020 : string := "https://json-schema.org/draft/2020-12/schema".

(** transform.rs:638-660 DEFINED_FORMATS *)
Definition defined_formats : list string :=
  ["duration"; "uuid";
   "date-time"; "date"; "time"; "email"; "idn-email"; "hostname"; "idn-hostname"; "ipv4"; "ipv6";
   "uri"; "uri-reference"; "iri"; "iri-reference"; "uri-template"; "json-pointer";
   "relative-json-pointer"; "regex"].

(** transform.rs:662-706 [RestrictFormatsImpl]: the state is [inferred_formats]; [n] bounds the
    recursion (see TransformProofs.restrict_formats_unfold). *)
Fixpoint restrict_formats_impl (n : nat) (infer : bool) (allowed : list string)
    (s : json) (inferred : option (list string)) : json * option (list string) :=
  match n with
  | O => (s, inferred)
  | S n' =>
      match s with
      | JObj m =>
          let previous := inferred in
          let next :=
            match (if infer then mget "$schema" m else None) with
            | Some u =>
                let u := match u with JStr x => x | _ => "" end in
                if String.eqb u uri_draft07 then Some (Some (skipn 2 defined_formats))
                else if String.eqb u uri_2019 || String.eqb u uri_2020 then
                  Some (Some defined_formats)
                else None
            | None => Some inferred
            end in
          match next with
          | None => (s, inferred)
          | Some inferred1 =>
              let m1 :=
                match mget "format" m with
                | Some (JStr f) =>
                    if negb (mem f allowed)
                       && negb match inferred1 with Some fs => mem f fs | None => false end
                    then mdel "format" m
                    else m
                | _ => m
                end in
              let '(s2, _) :=
                transform_subschemas_st (restrict_formats_impl n' infer allowed) (JObj m1) inferred1 in
              (s2, previous)
          end
      | _ => (s, inferred)
      end
  end.

(** transform.rs:626-636 [RestrictFormats] *)
Definition restrict_formats (infer : bool) (allowed : list string) (s : json) : json :=
  fst (restrict_formats_impl (depth s) infer allowed s None).
