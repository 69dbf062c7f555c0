(** Model of /repo/schemars/src/ser.rs: the schema inferred from an example value, and of
    SchemaGenerator::root_schema_for_value (generate.rs:510-566).

    A value is represented by the calls its Serialize implementation makes (serde's data model).
    Simplifications:
    - a Serialize implementation that makes an ill-formed sequence of calls (a map value without a
      key, for instance) or fails of its own accord is not modelled;
    - floating point and compound map keys are not modelled ([None]: the latter are refused by
      serde_json, see the comment at ser.rs:377). *)
From Coq Require Import String Ascii List ZArith NArith Bool DecimalString.
From Verif Require Import Json SchemaApi Transform Private Generate.
Import ListNotations.
Open Scope string_scope.

Inductive sval :=
| VBool (b : bool)
| VInt (z : Z)
| VFloat (n : option (Z * Z))       (* [None]: NaN or an infinity *)
| VChar (c : string)
| VStr (s : string)
| VDisplay (s : string)             (* collect_str *)
| VBytes (l : list Z)
| VNone
| VUnit
| VSome (v : sval)
| VUnitStruct (name : string)
| VUnitVariant (variant : string)
| VNewtypeStruct (name : string) (v : sval)
| VNewtypeVariant (variant : string) (v : sval)
| VSeq (l : list sval)
| VTuple (l : list sval)
| VTupleStruct (name : string) (l : list sval)
| VTupleVariant (variant : string) (l : list sval)
| VMap (l : list (sval * sval))          (* serialize_map, entry by entry *)
| VCollectMap (l : list (sval * sval))   (* collect_map: BTreeMap, HashMap *)
| VStruct (name : string) (l : list (string * sval))
| VStructVariant (variant : string) (l : list (string * sval)).

(** [Option]-valued maps over lists: stop at the first error *)
Definition omap {A B} (f : A -> option B) : list A -> option (list B) :=
  fix go l :=
    match l with
    | [] => Some []
    | x :: t => match f x, go t with Some y, Some ys => Some (y :: ys) | _, _ => None end
    end.
Definition ofold {A S} (f : S -> A -> option S) : list A -> S -> option S :=
  fix go l s :=
    match l with
    | [] => Some s
    | x :: t => match f s x with Some s' => go t s' | None => None end
    end.

(** Decimal text of an integer *)
Definition show_int (z : Z) : string := NilZero.string_of_int (Z.to_int z).

(** ** serde_json (outside /repo) *)
(** [serde_json::value::ser::MapKeySerializer]: the key of a map entry; [None] is an error *)
Fixpoint key_json (k : sval) : option string :=
  match k with
  | VStr s | VChar s | VDisplay s => Some s
  | VBool b => Some (if b then "true" else "false")
  | VInt z => Some (show_int z)
  | VUnitVariant n => Some n
  | VNewtypeStruct _ v => key_json v
  | _ => None
  end.

Definition fits_number (z : Z) : bool := Z.leb (- 2 ^ 63) z && Z.ltb z (2 ^ 64).

Fixpoint to_json (v : sval) : option json :=
  match v with
  | VBool b => Some (JBool b)
  | VInt z => if fits_number z then Some (JNum (NInt z)) else None
  | VFloat (Some (m, e)) => Some (JNum (NFlt m e))
  | VFloat None => Some JNull
  | VChar s | VStr s | VDisplay s => Some (JStr s)
  | VBytes l => Some (JArr (map (fun b => JNum (NInt b)) l))
  | VNone | VUnit | VUnitStruct _ => Some JNull
  | VSome v => to_json v
  | VUnitVariant n => Some (JStr n)
  | VNewtypeStruct _ v => to_json v
  | VNewtypeVariant n v => option_map (fun j => JObj [(n, j)]) (to_json v)
  | VSeq l | VTuple l | VTupleStruct _ l => option_map JArr (omap to_json l)
  | VTupleVariant n l => option_map (fun js => JObj [(n, JArr js)]) (omap to_json l)
  | VMap l | VCollectMap l =>
      option_map (fun es => JObj (mk es))
        (omap (fun kv => match kv with (a, b) =>
                         match key_json a, to_json b with Some k, Some j => Some (k, j) | _, _ => None end end) l)
  | VStruct _ l =>
      option_map (fun es => JObj (mk es))
        (omap (fun kv => match kv with (k, b) => option_map (pair k) (to_json b) end) l)
  | VStructVariant n l =>
      option_map (fun es => JObj [(n, JObj (mk es))])
        (omap (fun kv => match kv with (k, b) => option_map (pair k) (to_json b) end) l)
  end.

(** [serde_json::to_string] of a string: the text between the quotes *)
Definition hexdigit (n : N) : ascii :=
  ascii_of_N (if N.ltb n 10 then 48 + n else 87 + n)%N.
Definition escape_char (a : ascii) : string :=
  let n := N_of_ascii a in
  if N.eqb n 34 then String "\" (String """" "")
  else if N.eqb n 92 then "\\"
  else if N.eqb n 8 then "\b"
  else if N.eqb n 9 then "\t"
  else if N.eqb n 10 then "\n"
  else if N.eqb n 12 then "\f"
  else if N.eqb n 13 then "\r"
  else if N.ltb n 32 then "\u00" ++ String (hexdigit (n / 16)) (String (hexdigit (n mod 16)) "")
  else String a "".
Fixpoint escape_text (s : string) : string :=
  match s with EmptyString => EmptyString | String a s' => escape_char a ++ escape_text s' end.

Definition quote : ascii := """".
Definition quoted (s : string) : string := String quote (escape_text s ++ String quote "").

(** [serde_json::to_string(key)] for the keys above; bool and integer keys have no quotes *)
Fixpoint key_text (k : sval) : option string :=
  match k with
  | VStr s | VChar s | VDisplay s => Some (quoted s)
  | VBool b => Some (if b then "true" else "false")
  | VInt z => Some (show_int z)
  | VUnitVariant n => Some (quoted n)
  | VNewtypeStruct _ v => key_text v
  | VSome v => key_text v
  | _ => None
  end.

(** [trim_start_matches('"')], [trim_end_matches('"')] *)
Fixpoint trim_start_q (s : string) : string :=
  match s with
  | String a s' => if Ascii.eqb a quote then trim_start_q s' else s
  | EmptyString => EmptyString
  end.
Fixpoint trim_end_q (s : string) : string :=
  match s with
  | EmptyString => EmptyString
  | String a s' =>
      match trim_end_q s' with
      | EmptyString => if Ascii.eqb a quote then EmptyString else String a EmptyString
      | t => String a t
      end
  end.

(** ser.rs:371-387 [serialize_key] *)
Definition key_name (k : sval) : option string := option_map (fun t => trim_end_q (trim_start_q t)) (key_text k).

(** ** ser.rs *)
(** The schemas of bool, char, str, [u8], Value and (): all of these types are inlined, so
    [subschema_for] returns them without touching the generator
    (json_schema_impls/primitives.rs, sequences.rs, serdejson.rs). *)
Definition type_schema (t : string) : json := obj [("type", JStr t)].
Definition char_schema : json :=
  obj [("type", JStr "string"); ("minLength", JNum (NInt 1)); ("maxLength", JNum (NInt 1))].
Definition u8_schema : json :=
  obj [("type", JStr "integer"); ("format", JStr "uint8"); ("minimum", JNum (NInt 0)); ("maximum", JNum (NInt 255))].
Definition bytes_schema : json := obj [("type", JStr "array"); ("items", u8_schema)].

(** ser.rs:279-321 [SerializeSeq] *)
Definition seq_element (items : list json) (schema : json) : list json :=
  if json_eqb schema (JBool true) then [schema]
  else if existsb (json_eqb schema) items then items
  else (items ++ [schema])%list.
Definition seq_closed (items : list json) : bool :=
  match items with JBool true :: _ => true | _ => false end.
Definition seq_end (items : list json) : json :=
  obj [("type", JStr "array");
       ("items", match items with
                 | [] => JBool true
                 | [s] => s
                 | _ => obj [("anyOf", JArr items)]
                 end)].

(** ser.rs:323-353 [SerializeTuple] *)
Definition titled (title : string) (m : map_t) : json :=
  JObj (if String.eqb title "" then m else mset "title" (JStr title) m).
Definition tuple_end (title : string) (items : list json) : json :=
  let len := JNum (NInt (Z.of_nat (List.length items))) in
  titled title (mk [("type", JStr "array"); ("prefixItems", JArr items); ("maxItems", len); ("minItems", len)]).

(** ser.rs:403-417 [SerializeMap::end] *)
Definition map_end (title : string) (properties : map_t) : json :=
  titled title (mk [("type", JStr "object"); ("properties", JObj properties)]).

(** ser.rs:85-117 [collect_map] *)
Definition collect_step (acc : option json) (schema : json) : option json :=
  match acc with
  | None => Some schema
  | Some items => if json_eqb items schema then acc else Some (JBool true)
  end.
Definition collect_closed (acc : option json) : bool :=
  match acc with Some (JBool true) => true | _ => false end.
Definition collect_end (acc : option json) : json :=
  obj [("type", JStr "object");
       ("additionalProperties", match acc with Some s => s | None => JBool true end)].

(** ser.rs:51-277: the schema of a value; [None] is an error *)
Fixpoint ser_schema (include_title : bool) (v : sval) : option json :=
  match v with
  | VInt _ => Some (type_schema "integer")
  | VFloat _ => Some (type_schema "number")
  | VBool _ => Some (type_schema "boolean")
  | VChar _ => Some char_schema
  | VStr _ | VDisplay _ => Some (type_schema "string")
  | VBytes _ => Some bytes_schema
  | VNone | VUnit => Some (JBool true)
  | VSome v => option_map allow_null (ser_schema false v)
  | VUnitStruct _ => Some unit_schema
  | VUnitVariant _ | VNewtypeVariant _ _ | VTupleVariant _ _ | VStructVariant _ _ => Some (JBool true)
  | VNewtypeStruct name v =>
      option_map (fun s => if include_title && negb (String.eqb name "") then insert "title" (JStr name) s else s)
        (ser_schema include_title v)
  | VSeq l =>
      option_map seq_end
        (ofold (fun items x =>
           if seq_closed items then Some items
           else option_map (seq_element items) (ser_schema false x)) l [])
  | VTuple l => option_map (tuple_end "") (omap (ser_schema false) l)
  | VTupleStruct name l =>
      option_map (tuple_end (if include_title then name else "")) (omap (ser_schema false) l)
  | VCollectMap l =>
      option_map collect_end
        (ofold (fun acc kv =>
           if collect_closed acc then Some acc
           else match kv with (_, b) => option_map (collect_step acc) (ser_schema false b) end) l None)
  | VMap l =>
      option_map (fun es => map_end "" (mk es))
        (omap (fun kv => match kv with (a, b) =>
                         match key_name a, ser_schema false b with Some k, Some s => Some (k, s) | _, _ => None end end) l)
  | VStruct name l =>
      option_map (fun es => map_end (if include_title then name else "") (mk es))
        (omap (fun kv => match kv with (k, b) => option_map (pair k) (ser_schema false b) end) l)
  end.

(** generate.rs:510-566 [root_schema_for_value], [into_root_schema_for_value], before the transforms
    and for a generator without definitions (the serializer adds none, so [add_definitions] does
    nothing). *)
Definition root_for_value (meta : option string) (v : sval) : option json :=
  option_map (fun s =>
    let m := ensure_obj s in
    let m := match to_json v with Some j => mset "examples" (JArr [j]) m | None => m end in
    JObj (match meta with Some x => mset "$schema" (JStr x) m | None => m end)) (ser_schema true v).
