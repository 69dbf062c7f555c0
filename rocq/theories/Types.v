(** Model of the [JsonSchema] implementations: /repo/schemars/src/json_schema_impls and the code
    generated by the derive macro (/repo/schemars_derive/src/lib.rs, schema_exprs.rs, ast/mod.rs).

    A Rust type is an [rty]; what its implementation does is a program over the generator
    (Generate.v). User-defined types are given by declarations.

    Simplifications:
    - Box, Rc, Arc, references, Mutex, RwLock, Cell, RefCell, Cow, Wrapping, Reverse, atomics,
      RangeInclusive, PhantomData, IndexMap, IndexSet (indexmap2.rs), ArrayString, BytesMut, SmallVec,
      SmolStr, transparent structs and containers with [#[schemars(with = "T")]] forward every method to another type (forward_impl!,
      json_schema_impls/mod.rs:9-52; schemars_derive/src/lib.rs:64-95): [TFwd];
    - of the attributes of derived types: rename, skip*, default, skip_serializing_if, flatten,
      deny_unknown_fields, required, untagged, tag, content, inline and annotations (title,
      description, ...), from, try_from, into and JsonSchema_repr are modelled. Not modelled here:
      schema_with, with on variants, ref_variants, validation attributes other than required
      (ValidationAttrs.v), extend, transform (CommonAttrs.v). *)
From Coq Require Import String Ascii List ZArith Bool.
From Verif Require Import Json SchemaApi Pointer Private Generate SerValue ValidationAttrs.
Import ListNotations.
Open Scope string_scope.
Open Scope list_scope.

Inductive ity := I8 | I16 | I32 | I64 | I128 | ISize | U8 | U16 | U32 | U64 | U128 | USize.

(** Types written as strings: IP addresses (primitives.rs:81-85), and of other crates Uuid (uuid1.rs), Url
    (url2.rs), NaiveDate, NaiveDateTime, NaiveTime, DateTime<Tz>, Weekday (chrono04.rs), SignedDuration,
    Span, Timestamp, Zoned, Date, Time, DateTime (jiff02.rs), Version (semver1.rs) and
    rust_decimal's Decimal and bigdecimal's BigDecimal, which share one implementation (decimal.rs) *)
Inductive txt :=
| Ipv4 | Ipv6 | IpAny | Uuid | Url | ChronoDate | ChronoDateTime | ChronoTime | ChronoZoned | Weekday
| JiffSignedDuration | JiffSpan | JiffTimestamp | JiffZoned | JiffDate | JiffTime | JiffDateTime
| SemVer | Decimal.

Inductive rty :=
| TStr                               (* str, String, Path, PathBuf, SocketAddr* *)
| TBool
| TUnit
| TChar
| TF32
| TF64
| TAny                               (* serde_json::Value *)
| TNumber                            (* serde_json::Number *)
| TInt (i : ity)
| TNonZero (i : ity)
| TText (k : txt)
| TOption (t : rty)
| TSeq (t : rty)                     (* Vec, slices, VecDeque, LinkedList, BinaryHeap *)
| TSet (t : rty)                     (* BTreeSet, HashSet *)
| TArray (n : nat) (t : rty)
| TTuple (ts : list rty)
| TMap (k v : rty)                   (* BTreeMap, HashMap *)
| TResult (t e : rty)
| TBound (t : rty)
| TRange (t : rty)
| TDuration
| TSystemTime
| TOsString
| TCString
| TEither (l r : rty)                (* either::Either *)
| TArrayVec (n : nat) (t : rty)      (* arrayvec::ArrayVec *)
| TBytes                             (* bytes::Bytes *)
| TTimeDelta                         (* chrono::TimeDelta *)
| TFwd (t : rty)                     (* forwards to [t] *)
| TWeak (t : rty)                    (* rc::Weak, sync::Weak: forwards to [t] *)
| TAdt (item : nat) (consts : list string) (args : list rty). (* derived; with its generic arguments *)

(** ** Declarations *)
(** ast/mod.rs:39-45 [Field] with the attributes that matter. [f_skip_if] is the
    [skip_serializing_if] predicate on the field's value (an [X]); [f_default_value] is what
    [field_default_expr] (schema_exprs.rs:766-818) evaluates to. *)
Record field (X : Type) := Field {
  f_ser : string;                (* serialize name *)
  f_de : string;                 (* deserialize name *)
  f_ty : rty;
  f_skip_ser : bool;
  f_skip_de : bool;
  f_skip_if : option (X -> bool);
  f_default : bool;              (* #[serde(default)] or default = "..." *)
  f_default_value : option json;
  f_flatten : bool;
  f_valid : vattrs;              (* #[schemars(length(...), range(...), required, ...)] and those of validate and garde *)
  f_meta : list (string * json)  (* title, description, deprecated, examples, ... *)
}.
Arguments Field {X}. Arguments f_ser {X}. Arguments f_de {X}. Arguments f_ty {X}.
Arguments f_skip_ser {X}. Arguments f_skip_de {X}. Arguments f_skip_if {X}. Arguments f_default {X}.
Arguments f_default_value {X}. Arguments f_flatten {X}. Arguments f_valid {X}. Arguments f_meta {X}.

(** [required] *)
Definition f_required {X} (f : field X) : bool := va_required (f_valid f).

Inductive style (X : Type) :=
| Unit
| Newtype (f : field X)
| Tuple (fs : list (field X))
| Struct (fs : list (field X)).
Arguments Unit {X}. Arguments Newtype {X}. Arguments Tuple {X}. Arguments Struct {X}.

Record variant (X : Type) := Variant {
  v_ser : string;
  v_de : string;
  v_skip_ser : bool;
  v_skip_de : bool;
  v_untagged : bool;
  v_style : style X;
  v_meta : list (string * json) }.
Arguments Variant {X}. Arguments v_ser {X}. Arguments v_de {X}. Arguments v_skip_ser {X}.
Arguments v_skip_de {X}. Arguments v_untagged {X}. Arguments v_style {X}. Arguments v_meta {X}.

Inductive tagging := External | Untagged | Internal (tag : string) | Adjacent (tag content : string).

(** [DRepr]: an enum with #[derive(JsonSchema_repr)] and the values of its variants. [DConv]: the
    type of #[serde(from)] or try_from, the type of #[serde(into)], and the type's own data. A
    container with [#[schemars(with = "T")]] and annotations has [T] for both. *)
Inductive data (X : Type) :=
| DStruct (default : bool) (s : style X)
| DEnum (t : tagging) (vs : list (variant X))
| DRepr (zs : list Z)
| DConv (from into : option rty) (own : data X).
Arguments DStruct {X}. Arguments DEnum {X}. Arguments DRepr {X}. Arguments DConv {X}.

Record decl (X : Type) := Decl {
  d_deny : bool;                 (* deny_unknown_fields *)
  d_data : data X;
  d_meta : list (string * json) }.
Arguments Decl {X}. Arguments d_deny {X}. Arguments d_data {X}. Arguments d_meta {X}.

(** A piece of a rename format string (schemars_derive/src/name.rs). *)
Inductive piece := Lit (s : string) | ConstParam (i : nat) | TypeParam (i : nat).

(** The item a derive is written on; its fields may mention the generic parameters. *)
Record item (X : Type) := Item {
  it_module : string;                     (* module_path!() *)
  it_name : string;                       (* Container::name(), ast/mod.rs:81-89 *)
  it_format : option (list piece);        (* a rename attribute containing '{' *)
  it_inline : bool;
  it_decl : list string -> list rty -> decl X }.
Arguments Item {X}. Arguments it_module {X}. Arguments it_name {X}. Arguments it_format {X}.
Arguments it_inline {X}. Arguments it_decl {X}.

(** ** Integers *)
(** primitives.rs:66-71, 114-119: the "format" (= schema_name = schema_id) of an integer type *)
Definition int_format (i : ity) : string :=
  match i with
  | I8 => "int8" | I16 => "int16" | I32 => "int32" | I64 => "int64" | I128 => "int128" | ISize => "int"
  | U8 => "uint8" | U16 => "uint16" | U32 => "uint32" | U64 => "uint64" | U128 => "uint128" | USize => "uint"
  end.
Definition jz (z : Z) : json := JNum (NInt z).

(** primitives.rs:38-58 [ranged_impl], 15-36 [simple_impl], 94-112 [unsigned_impl] *)
Definition int_bounds (i : ity) : list (string * json) :=
  match i with
  | I8 => [("minimum", jz (-128)); ("maximum", jz 127)]
  | I16 => [("minimum", jz (-32768)); ("maximum", jz 32767)]
  | U8 => [("minimum", jz 0); ("maximum", jz 255)]
  | U16 => [("minimum", jz 0); ("maximum", jz 65535)]
  | U32 | U64 | U128 | USize => [("minimum", jz 0)]
  | I32 | I64 | I128 | ISize => []
  end.
Definition int_schema (i : ity) : json :=
  obj ([("type", JStr "integer"); ("format", JStr (int_format i))] ++ int_bounds i).

Definition is_signed (i : ity) : bool :=
  match i with I8 | I16 | I32 | I64 | I128 | ISize => true | _ => false end.

(** nonzero.rs:6-66 *)
Definition nonzero_schema (i : ity) : json :=
  if is_signed i then insert "not" (obj [("const", jz 0)]) (int_schema i)
  else insert "minimum" (jz 1) (int_schema i).
Definition nonzero_name (i : ity) : string :=
  match i with
  | I8 => "NonZeroI8" | I16 => "NonZeroI16" | I32 => "NonZeroI32" | I64 => "NonZeroI64"
  | I128 => "NonZeroI128" | ISize => "NonZeroIsize"
  | U8 => "NonZeroU8" | U16 => "NonZeroU16" | U32 => "NonZeroU32" | U64 => "NonZeroU64"
  | U128 => "NonZeroU128" | USize => "NonZeroUsize"
  end.

(** primitives.rs:7-22 *)
Definition formatted (ty format : string) : json := obj [("type", JStr ty); ("format", JStr format)].
(** primitives.rs:81-85, chrono04.rs:62-93, jiff02.rs:6-38, uuid1.rs, url2.rs *)
Definition text_format (k : txt) : string :=
  match k with
  | Ipv4 => "ipv4" | Ipv6 => "ipv6" | IpAny => "ip" | Uuid => "uuid" | Url => "uri"
  | ChronoDate | JiffDate => "date" | ChronoDateTime | JiffDateTime => "partial-date-time"
  | ChronoTime | JiffTime => "partial-time" | ChronoZoned | JiffTimestamp => "date-time"
  | JiffSignedDuration | JiffSpan => "duration" | JiffZoned => "zoned-date-time"
  | Weekday | SemVer | Decimal => ""   (* no format *)
  end.
Definition weekdays : list string := ["Mon"; "Tue"; "Wed"; "Thu"; "Fri"; "Sat"; "Sun"].
(** semver1.rs:18 *)
Definition semver_pattern : string :=
  "^(0|[1-9]\d*)\.(0|[1-9]\d*)\.(0|[1-9]\d*)(?:-((?:0|[1-9]\d*|\d*[a-zA-Z-][0-9a-zA-Z-]*)(?:\.(?:0|[1-9]\d*|\d*[a-zA-Z-][0-9a-zA-Z-]*))*))?(?:\+([0-9a-zA-Z-]+(?:\.[0-9a-zA-Z-]+)*))?$".
(** decimal.rs:16-30 *)
Definition decimal_pattern (c : contract) : string :=
  match c with Deserialize => "^-?\d+(\.\d+)?([eE]\d+)?$" | Serialize => "^-?\d+(\.\d+)?$" end.
Definition decimal_type (c : contract) : json :=
  match c with Deserialize => JArr [JStr "string"; JStr "number"] | Serialize => JStr "string" end.
Definition text_schema (c : contract) (k : txt) : json :=
  match k with
  | Weekday => obj [("type", JStr "string"); ("enum", JArr (map JStr weekdays))]   (* chrono04.rs:6-31 *)
  | SemVer => obj [("type", JStr "string"); ("pattern", JStr semver_pattern)]
  | Decimal => obj [("type", decimal_type c); ("pattern", JStr (decimal_pattern c))]
  | _ => formatted "string" (text_format k)
  end.
Definition text_id (k : txt) : string :=
  match k with
  | Ipv4 => "ipv4" | Ipv6 => "ipv6" | IpAny => "ip" | Uuid => "uuid::Uuid" | Url => "url::Url"
  | ChronoDate => "chrono::NaiveDate" | ChronoDateTime => "chrono::NaiveDateTime" | ChronoTime => "chrono::NaiveTime"
  | ChronoZoned => "chrono::DateTime" | Weekday => "chrono::Weekday"
  | JiffSignedDuration => "jiff::SignedDuration" | JiffSpan => "jiff::Span" | JiffTimestamp => "jiff::Timestamp"
  | JiffZoned => "jiff::Zoned" | JiffDate => "jiff::Date" | JiffTime => "jiff::Time" | JiffDateTime => "jiff::DateTime"
  | SemVer => "semver::Version" | Decimal => "Decimal"
  end.
Definition text_name (k : txt) : string :=
  match k with
  | Ipv4 => "ipv4" | Ipv6 => "ipv6" | IpAny => "ip" | Uuid => "Uuid" | Url => "Url"
  | ChronoDate => "NaiveDate" | ChronoDateTime => "NaiveDateTime" | ChronoTime => "NaiveTime"
  | ChronoZoned => "DateTime" | Weekday => "Weekday"
  | JiffSignedDuration => "SignedDuration" | JiffSpan => "Span" | JiffTimestamp => "Timestamp"
  | JiffZoned => "Zoned" | JiffDate => "Date" | JiffTime => "Time" | JiffDateTime => "DateTime"
  | SemVer => "SemVer" | Decimal => "Decimal"
  end.

(** ** Schemas of the standard types, given the schemas of their parts *)
(** sequences.rs:6-53 *)
Definition seq_schema (s : json) : json := obj [("type", JStr "array"); ("items", s)].
Definition set_schema (s : json) : json :=
  obj [("type", JStr "array"); ("uniqueItems", JBool true); ("items", s)].
(** array.rs *)
Definition empty_array_schema : json := obj [("type", JStr "array"); ("maxItems", jz 0)].
Definition array_schema (n : nat) (s : json) : json :=
  obj [("type", JStr "array"); ("items", s); ("minItems", jz (Z.of_nat n)); ("maxItems", jz (Z.of_nat n))].
(** tuple.rs *)
Definition tuple_schema (ss : list json) : json :=
  let n := jz (Z.of_nat (List.length ss)) in
  obj [("type", JStr "array"); ("prefixItems", JArr ss); ("minItems", n); ("maxItems", n)].

(** core.rs:51-67, 83-105, 122-135; ffi.rs: an object with the given properties, all required *)
Definition required_props (ps : list (string * json)) : json :=
  obj [("type", JStr "object"); ("properties", obj ps); ("required", JArr (map (fun p => JStr (fst p)) ps))].
Definition result_schema (t e : json) : json :=
  obj [("oneOf", JArr [required_props [("Ok", t)]; required_props [("Err", e)]])].
Definition bound_schema (t t' : json) : json :=
  obj [("oneOf", JArr [required_props [("Included", t)]; required_props [("Excluded", t')];
                       obj [("type", JStr "string"); ("const", JStr "Unbounded")]])].
Definition range_schema (t : json) : json := required_props [("start", t); ("end", t)].
Definition os_string_schema (u8 u16 : json) : json :=
  obj [("oneOf", JArr [required_props [("Unix", u8)]; required_props [("Windows", u16)]])].
(** ffi.rs:52-67 *)
Definition c_string_schema (c : contract) : json :=
  obj [("type", match c with Deserialize => JArr [JStr "array"; JStr "string"] | Serialize => JStr "array" end);
       ("items", obj [("type", JStr "integer"); ("minimum", jz 1); ("maximum", jz 255)])].

(** either1.rs:19-42 *)
Definition either_side (k : string) (s : json) : json :=
  obj [("type", JStr "object"); ("properties", obj [(k, s)]); ("additionalProperties", JBool false); ("required", JArr [JStr k])].
Definition either_schema (l r : json) : json := obj [("oneOf", JArr [either_side "Left" l; either_side "Right" r])].
(** arrayvec07.rs:20-26 *)
Definition array_vec_schema (n : nat) (s : json) : json :=
  obj [("type", JStr "array"); ("items", s); ("maxItems", jz (Z.of_nat n))].
(** bytes1.rs:16-26 *)
Definition bytes1_schema (c : contract) (u8 : json) : json :=
  obj [("type", match c with Deserialize => JArr [JStr "array"; JStr "string"] | Serialize => JStr "array" end); ("items", u8)].
(** chrono04.rs:33-60 *)
Definition time_delta_schema : json :=
  obj [("type", JStr "array");
       ("prefixItems", JArr [obj [("type", JStr "integer"); ("format", JStr "int64")];
                             obj [("type", JStr "integer"); ("minimum", jz 0); ("exclusiveMaximum", jz 1000000000)]]);
       ("minItems", jz 2); ("maxItems", jz 2)].

(** ** Maps: maps.rs:36-141 *)
Definition as_obj (v : json) : option map_t := match v with JObj m => Some m | _ => None end.
Definition as_str (v : json) : option string := match v with JStr s => Some s | _ => None end.

(** maps.rs:44-54 *)
Definition key_options (ks : json) : option (list map_t) :=
  match (match s_get "anyOf" ks with Some (JArr a) => omap as_obj a | _ => None end) with
  | Some l => Some l
  | None => match ks with JObj m => Some [m] | _ => None end
  end.

(** [str::strip_prefix] *)
Fixpoint strip_prefix (p s : string) : option string :=
  match p, s with
  | EmptyString, _ => Some s
  | String a p', String b s' => if Ascii.eqb a b then strip_prefix p' s' else None
  | _, _ => None
  end.

(** maps.rs:57-68 *)
Definition resolve_option (path : string) (defs : map_t) (o : map_t) : map_t :=
  match mget "$ref" o with
  | Some (JStr r) =>
      match strip_prefix (String "#" (definitions_path_stripped path ++ "/")%string) r with
      | Some n => match mget n defs with Some (JObj d) => d | _ => o end
      | None => o
      end
  | _ => o
  end.

Record key_kinds := KeyKinds {
  k_other : bool;           (* additional_properties *)
  k_ints : nat;             (* IntegerSupport: 0 None, 1 Unsigned, 2 Signed *)
  k_patterns : list string;
  k_props : list string }.

(** maps.rs:74-102 *)
Definition add_option (k : key_kinds) (o : map_t) : key_kinds :=
  let pattern := match mget "pattern" o with Some (JStr p) => Some p | _ => None end in
  let enum := match mget "enum" o with Some (JArr a) => omap as_str a | _ => None end in
  let type_is t := match mget "type" o with Some (JStr x) => String.eqb x t | _ => false end in
  let min0 := match mget "minimum" o with Some (JNum (NInt 0)) => true | _ => false end in
  if type_is "string" then
    match pattern, enum with
    | Some p, _ => KeyKinds (k_other k) (k_ints k) (k_patterns k ++ [p]) (k_props k)
    | None, Some es => KeyKinds (k_other k) (k_ints k) (k_patterns k) (k_props k ++ es)
    | None, None => KeyKinds true (k_ints k) (k_patterns k) (k_props k)
    end
  else if type_is "integer" then
    KeyKinds (k_other k) (Nat.max (k_ints k) (if min0 then 1 else 2)) (k_patterns k) (k_props k)
  else KeyKinds true (k_ints k) (k_patterns k) (k_props k).

Definition digits_pattern : string := "^\d+$".
Definition signed_pattern : string := "^-?\d+$".

(** maps.rs:104-141 *)
Definition map_of_kinds (k : key_kinds) (vs : json) : json :=
  let patterns := k_patterns k ++ match k_ints k with O => [] | 1 => [digits_pattern] | _ => [signed_pattern] end in
  let m := mset "additionalProperties" (if k_other k then vs else JBool false) (mk [("type", JStr "object")]) in
  let m := match patterns with
           | [] => m
           | _ => mset "patternProperties" (obj (map (fun p => (p, vs)) patterns)) m end in
  let m := match k_props k with
           | [] => m
           | ps => mset "properties" (obj (map (fun p => (p, vs)) ps)) m end in
  JObj m.

Definition map_schema (path : string) (defs : map_t) (ks vs : json) : json :=
  match key_options ks with
  | None => obj [("additionalProperties", vs); ("type", JStr "object")]
  | Some options =>
      map_of_kinds (fold_left add_option (map (resolve_option path defs) options) (KeyKinds false 0 [] [])) vs
  end.

(** ** Names and ids *)
Fixpoint join (sep : string) (l : list string) : string :=
  match l with
  | [] => ""
  | [x] => x
  | x :: t => (x ++ sep ++ join sep t)%string
  end.
Definition cat (l : list string) : string := join "" l.

Section Impl.
Context {X St : Type}.
Variable items : nat -> item X.
Notation prog := (prog rty St).

(** schemars_derive/src/lib.rs:97-115 *)
Definition adt_name (it : item X) (consts names : list string) : string :=
  match it_format it with
  | None => it_name it
  | Some ps => cat (map (fun p => match p with
                       | Lit s => s
                       | ConstParam i => nth i consts ""
                       | TypeParam i => nth i names "" end) ps)
  end.
(** schemars_derive/src/lib.rs:117-145: the parameters are not separated *)
Definition adt_id (it : item X) (consts ids : list string) : string :=
  match consts, ids with
  | [], [] => (it_module it ++ "::" ++ it_name it)%string
  | _, _ => (it_module it ++ "::" ++ it_name it ++ "<" ++ cat (consts ++ ids) ++ ">")%string
  end.

(** The types with the id "string" ([string_key_id] in TypeId.v) *)
Fixpoint string_key (t : rty) : bool :=
  match t with TStr => true | TFwd t | TWeak t => string_key t | _ => false end.
(** [JsonSchema::schema_name] *)
Fixpoint type_name (t : rty) : string :=
  match t with
  | TStr => "string" | TBool => "boolean" | TUnit => "null" | TChar => "Character"
  | TF32 => "float" | TF64 => "double" | TAny => "AnyValue" | TNumber => "Number"
  | TInt i => int_format i
  | TText k => text_name k
  | TNonZero i => nonzero_name i
  | TOption t => ("Nullable_" ++ type_name t)%string
  | TSeq t => ("Array_of_" ++ type_name t)%string
  | TSet t => ("Set_of_" ++ type_name t)%string
  | TArray O _ => "EmptyArray"
  | TArray n t => ("Array_size_" ++ show_int (Z.of_nat n) ++ "_of_" ++ type_name t)%string
  | TTuple ts => ("Tuple_of_" ++ join "_and_" (map type_name ts))%string
  | TMap k v => if string_key k then ("Map_of_" ++ type_name v)%string
                else ("Map_from_" ++ type_name k ++ "_to_" ++ type_name v)%string
  | TResult t e => ("Result_of_" ++ type_name t ++ "_or_" ++ type_name e)%string
  | TBound t => ("Bound_of_" ++ type_name t)%string
  | TRange t => ("Range_of_" ++ type_name t)%string
  | TDuration => "Duration"
  | TSystemTime => "SystemTime"
  | TOsString => "OsString"
  | TCString => "CString"
  | TEither l r => ("Either_" ++ type_name l ++ "_or_" ++ type_name r)%string
  | TArrayVec n t => ("Array_up_to_size_" ++ show_int (Z.of_nat n) ++ "_of_" ++ type_name t)%string
  | TBytes => "Bytes"
  | TTimeDelta => "TimeDelta"
  | TFwd t | TWeak t => type_name t
  | TAdt n cs ts => adt_name (items n) cs (map type_name ts)
  end.

(** [JsonSchema::schema_id] *)
Fixpoint type_id (t : rty) : string :=
  match t with
  | TStr => "string" | TBool => "boolean" | TUnit => "null" | TChar => "char"
  | TF32 => "float" | TF64 => "double" | TAny => "AnyValue" | TNumber => "Number"
  | TInt i => int_format i
  | TNonZero i => ("std::num::" ++ nonzero_name i)%string
  | TText k => text_id k
  | TOption t => ("Option<" ++ type_id t ++ ">")%string
  | TSeq t => ("[" ++ type_id t ++ "]")%string
  | TSet t => ("Set<" ++ type_id t ++ ">")%string
  | TArray O _ => "[]"
  | TArray n t => ("[" ++ show_int (Z.of_nat n) ++ "; " ++ type_id t ++ "]")%string
  | TTuple ts => ("(" ++ join "," (map type_id ts) ++ ")")%string
  | TMap k v => if String.eqb (type_id k) "string" then ("Map<" ++ type_id v ++ ">")%string
                else ("Map<" ++ type_id k ++ ", " ++ type_id v ++ ">")%string
  | TResult t e => ("Result<" ++ type_id t ++ ", " ++ type_id e ++ ">")%string
  | TBound t => ("Bound<" ++ type_id t ++ ">")%string
  | TRange t => ("Range<" ++ type_id t ++ ">")%string
  | TDuration => "std::time::Duration"
  | TSystemTime => "std::time::SystemTime"
  | TOsString => "std::ffi::OsString"
  | TCString => "std::ffi::CString"
  | TEither l r => ("either::Either<" ++ type_id l ++ ", " ++ type_id r ++ ">")%string
  | TArrayVec n t => ("Array_up_to_size_" ++ show_int (Z.of_nat n) ++ "_of_" ++ type_name t)%string   (* the name: arrayvec07.rs has no schema_id *)
  | TBytes => "bytes::Bytes"
  | TTimeDelta => "chrono::TimeDelta"
  | TFwd t | TWeak t => type_id t
  | TAdt n cs ts => adt_id (items n) cs (map type_id ts)
  end.

(** [JsonSchema::inline_schema] *)
Fixpoint type_inline (t : rty) : bool :=
  match t with
  | TResult _ _ | TBound _ | TRange _ | TDuration | TSystemTime | TOsString | TCString | TBytes | TText SemVer => false
  | TFwd t | TWeak t => type_inline t
  | TAdt n _ _ => it_inline (items n)
  | _ => true
  end.

(** lib.rs:182-189, core.rs:28-34: [_schemars_private_is_option] and the type whose [json_schema]
    [_schemars_private_non_optional_json_schema] runs *)
Fixpoint is_option (t : rty) : bool :=
  match t with TOption _ => true | TFwd t | TWeak t => is_option t | _ => false end.
Fixpoint strip_option (t : rty) : rty :=
  match t with TOption t | TFwd t | TWeak t => strip_option t | _ => t end.

(** Several [subschema_for] calls *)
Fixpoint subs (ts : list rty) (k : list json -> prog) : prog :=
  match ts with
  | [] => k []
  | t :: ts' => Sub t (fun s => subs ts' (fun ss => k (s :: ss)))
  end.

(** ** Derived implementations *)
Definition insert_all (l : list (string * json)) (s : json) : json :=
  fold_left (fun s kv => insert (fst kv) (snd kv) s) l s.

(** ast/mod.rs:165-184 [with_contract_check] *)
Definition included (skip_de skip_ser : bool) (c : contract) : bool :=
  match c with Serialize => negb skip_ser | Deserialize => negb skip_de end.

(** ast/mod.rs:141-163 [Name] *)
Definition name_for (c : contract) (ser de : string) : string :=
  match c with Serialize => ser | Deserialize => de end.

(** ast/mod.rs:107-122 [Field::add_mutators] *)
Definition field_mutators (f : field X) (s : json) : json :=
  let s := insert_all (f_meta f) s in
  let s := add_mutators (f_valid f) s in
  let s := if f_skip_de f then insert "readOnly" (JBool true) s else s in
  if f_skip_ser f then insert "writeOnly" (JBool true) s else s.

(** schema_exprs.rs:172-199 [expr_for_field], not for internally tagged newtypes *)
Definition field_schema (f : field X) (k : json -> prog) : prog :=
  if f_required f then Call (strip_option (f_ty f)) (fun s => k (field_mutators f s))
  else Sub (f_ty f) (fun s => k (field_mutators f s)).

(** schema_exprs.rs:712-735 *)
Definition is_optional (container_default : bool) (c : contract) (f : field X) : bool :=
  let has_default := container_default || f_default f in
  let has_skip_if := match f_skip_if f with Some _ => true | None => false end in
  if has_skip_if && has_default then true
  else if negb has_skip_if && negb has_default && negb (f_required f) then
    match c with Deserialize => is_option (f_ty f) | Serialize => false end
  else match c with
       | Deserialize => has_default || (negb (f_required f) && is_option (f_ty f))
       | Serialize => has_skip_if
       end.

(** schema_exprs.rs:703-710, 766-771 *)
Definition insert_default (container_default : bool) (f : field X) (s : json) : json :=
  if f_skip_ser f || negb (container_default || f_default f) then s
  else match f_default_value f with Some d => insert "default" d s | None => s end.

(** schema_exprs.rs:683-749: the properties of a struct or struct variant *)
Fixpoint struct_fields (container_default : bool) (c : contract) (fs : list (field X)) (s : json)
    (k : json -> prog) : prog :=
  match fs with
  | [] => k s
  | f :: fs' =>
      if negb (included (f_skip_de f) (f_skip_ser f) c) then struct_fields container_default c fs' s k
      else if f_flatten f then
        Call (strip_option (f_ty f)) (fun sub =>
          struct_fields container_default c fs'
            (flatten s (for_flatten sub (is_option (f_ty f) && negb (f_required f)))) k)
      else
        field_schema f (fun sub =>
          struct_fields container_default c fs'
            (insert_object_property s (name_for c (f_ser f) (f_de f)) (is_optional container_default c f)
               (insert_default container_default f sub)) k)
  end.

(** schema_exprs.rs:751-763 *)
Definition struct_prog (container_default deny : bool) (c : contract) (fs : list (field X))
    (k : json -> prog) : prog :=
  struct_fields container_default c fs
    (obj (("type", JStr "object") :: if deny then [("additionalProperties", JBool false)] else [])) k.

(** schema_exprs.rs:641-672 *)
Fixpoint tuple_fields (c : contract) (fs : list (field X)) (k : list json -> prog) : prog :=
  match fs with
  | [] => k []
  | f :: fs' =>
      if included (f_skip_de f) (f_skip_ser f) c
      then field_schema f (fun s => tuple_fields c fs' (fun ss => k (s :: ss)))
      else tuple_fields c fs' k
  end.
Definition tuple_struct_schema (ss : list json) : json :=
  let len := jz (Z.of_nat (List.length ss)) in
  let m := mk [("type", JStr "array")] in
  let m := match ss with [] => m | _ => mset "minItems" len (mset "prefixItems" (JArr ss) m) end in
  JObj (mset "maxItems" len m).

(** schema_exprs.rs:630-639 *)
Definition unit_prog (k : json -> prog) : prog := Sub TUnit k.

(** The four styles of a struct or (untagged) variant: schema_exprs.rs:73-84, 567-580 *)
Definition style_prog (container_default deny : bool) (c : contract) (s : style X) (k : json -> prog) : prog :=
  match s with
  | Unit => unit_prog k
  | Newtype f => field_schema f k
  | Tuple fs => tuple_fields c fs (fun ss => k (tuple_struct_schema ss))
  | Struct fs => struct_prog container_default deny c fs k
  end.

Definition v_name (c : contract) (v : variant X) : string := name_for c (v_ser v) (v_de v).

(** schema_exprs.rs:557-599; the setting [untagged_enum_variant_titles] is off (its default; see
    Titles.v for on) *)
Definition untagged_variant (deny : bool) (c : contract) (v : variant X) (actually : bool) (k : json -> prog) : prog :=
  style_prog false deny c (v_style v) (fun s => k (if actually then insert_all (v_meta v) s else s)).

Definition v_is_unit (v : variant X) : bool := match v_style v with Unit => true | _ => false end.

(** schema_exprs.rs:279-281 *)
Definition plain_unit (v : variant X) : bool :=
  v_is_unit v && match v_meta v with [] => true | _ => false end && negb (v_untagged v).

(** schema_exprs.rs:282-301 *)
Definition unit_names (c : contract) (vs : list (variant X)) : json :=
  obj [("type", JStr "string");
       ("enum", JArr (map (fun v => JStr (v_name c v))
                       (filter (fun v => included (v_skip_de v) (v_skip_ser v) c) vs)))].

(** schema_exprs.rs:312-337 *)
Definition external_variant (deny : bool) (c : contract) (v : variant X) (k : json -> prog) : prog :=
  if v_untagged v then untagged_variant deny c v true k
  else if v_is_unit v then k (insert_all (v_meta v) (new_unit_enum_variant (v_name c v)))
  else untagged_variant deny c v false (fun s =>
         k (insert_all (v_meta v) (new_externally_tagged_enum_variant (v_name c v) s))).

(** schema_exprs.rs:601-628, 342-368; _private/mod.rs:14-49 *)
Definition internal_variant (deny : bool) (c : contract) (tag : string) (v : variant X) (k : json -> prog) : prog :=
  if v_untagged v then untagged_variant deny c v true k
  else
    let finish s := k (insert_all (v_meta v) (apply_internal_tag tag (v_name c v) deny s)) in
    match v_style v with
    | Unit => unit_prog finish
    | Newtype f =>
        if f_required f then field_schema f finish
        else Call (f_ty f) (fun s => ReadSettings (fun st =>
               let '(s', inlined) := for_internal_newtype (type_inline (f_ty f)) (s_inline st) s in
               if inlined then finish (field_mutators f s')
               else Sub (f_ty f) (fun s'' => finish (field_mutators f s''))))
    | Tuple fs => tuple_fields c fs (fun ss => finish (tuple_struct_schema ss))
    | Struct fs => struct_prog false deny c fs finish
    end.

(** schema_exprs.rs:389-463 *)
Definition adjacent_schema (deny : bool) (tag content name : string) (sub : option json) : json :=
  obj ([("type", JStr "object");
        ("properties", obj ((tag, obj [("type", JStr "string"); ("const", JStr name)])
                            :: match sub with Some s => [(content, s)] | None => [] end));
        ("required", JArr (JStr tag :: match sub with Some _ => [JStr content] | None => [] end))]
       ++ if deny then [("additionalProperties", JBool false)] else []).
Definition adjacent_variant (deny : bool) (c : contract) (tag content : string) (v : variant X) (k : json -> prog) : prog :=
  if v_untagged v then untagged_variant deny c v true k
  else if v_is_unit v then k (insert_all (v_meta v) (adjacent_schema deny tag content (v_name c v) None))
  else untagged_variant deny c v false (fun s =>
         k (insert_all (v_meta v) (adjacent_schema deny tag content (v_name c v) (Some s)))).

(** schema_exprs.rs:467-506 [variant_subschemas] without ref_variants *)
Fixpoint variants (c : contract) (one : variant X -> (json -> prog) -> prog) (vs : list (variant X))
    (k : list json -> prog) : prog :=
  match vs with
  | [] => k []
  | v :: vs' =>
      if included (v_skip_de v) (v_skip_ser v) c
      then one v (fun s => variants c one vs' (fun ss => k (s :: ss)))
      else variants c one vs' k
  end.
Definition variant_schemas (unique : bool) (vs : list (variant X)) (ss : list json) : json :=
  obj [(if unique && negb (existsb v_untagged vs) then "oneOf" else "anyOf", JArr ss)].

(** schema_exprs.rs:251-272, 274-387 [expr_for_enum] *)
Definition enum_prog (deny : bool) (c : contract) (t : tagging) (vs : list (variant X)) (k : json -> prog) : prog :=
  match vs with
  | [] => k (JBool false)
  | _ =>
      match t with
      | External =>
          let units := filter plain_unit vs in
          let complex := filter (fun v => negb (plain_unit v)) vs in
          match complex with
          | [] => k (unit_names c units)
          | _ => variants c (external_variant deny c) complex (fun ss =>
                   k (variant_schemas true complex
                        (match units with [] => ss | _ => unit_names c units :: ss end)))
          end
      | Untagged => variants c (fun v => untagged_variant deny c v true) vs (fun ss => k (variant_schemas false vs ss))
      | Internal tag => variants c (internal_variant deny c tag) vs (fun ss => k (variant_schemas true vs ss))
      | Adjacent tag content =>
          variants c (adjacent_variant deny c tag content) vs (fun ss => k (variant_schemas true vs ss))
      end
  end.

(** schema_exprs.rs:113-157 [expr_for_repr] *)
Definition repr_schema (zs : list Z) : json := obj [("type", JStr "integer"); ("enum", JArr (map jz zs))].

(** schema_exprs.rs:51-108 [expr_for_container]: the type converted from or to *)
Definition converted (c : contract) (from into : option rty) : option rty :=
  match c with Deserialize => from | Serialize => into end.

(** schema_exprs.rs:51-111 [expr_for_container] *)
Fixpoint data_prog (deny : bool) (c : contract) (d : data X) (k : json -> prog) : prog :=
  match d with
  | DStruct def s => style_prog def deny c s k
  | DEnum t vs => enum_prog deny c t vs k
  | DRepr zs => k (repr_schema zs)
  | DConv from into own =>
      match converted c from into with
      | Some t => Call t k
      | None => data_prog deny c own k
      end
  end.
Definition decl_prog (c : contract) (d : decl X) : prog :=
  data_prog (d_deny d) c (d_data d) (fun s => Ret (insert_all (d_meta d) s)).

(** [JsonSchema::json_schema] *)
Fixpoint body (t : rty) : prog :=
  match t with
  | TStr => Ret (type_schema "string")
  | TBool => Ret (type_schema "boolean")
  | TUnit => Ret (type_schema "null")
  | TChar => Ret char_schema
  | TF32 => Ret (formatted "number" "float")
  | TF64 => Ret (formatted "number" "double")
  | TAny => Ret (JBool true)
  | TNumber => Ret (type_schema "number")
  | TInt i => Ret (int_schema i)
  | TNonZero i => Call (TInt i) (fun s =>
      Ret (if is_signed i then insert "not" (obj [("const", jz 0)]) s else insert "minimum" (jz 1) s))
  | TText k => ReadSettings (fun st => Ret (text_schema (s_contract st) k))
  | TOption t => Sub t (fun s => Ret (allow_null s))
  | TSeq t => Sub t (fun s => Ret (seq_schema s))
  | TSet t => Sub t (fun s => Ret (set_schema s))
  | TArray O _ => Ret empty_array_schema
  | TArray n t => Sub t (fun s => Ret (array_schema n s))
  | TTuple ts => subs ts (fun ss => Ret (tuple_schema ss))
  | TMap k v =>
      Call k (fun ks => Sub v (fun vs =>
        ReadSettings (fun st => ReadDefs (fun defs => Ret (map_schema (s_path st) defs ks vs)))))
  | TResult t e => Sub t (fun s => Sub e (fun s' => Ret (result_schema s s')))
  | TBound t => Sub t (fun s => Sub t (fun s' => Ret (bound_schema s s')))
  | TRange t => Sub t (fun s => Ret (range_schema s))
  | TDuration =>
      Call (TInt U64) (fun s => Call (TInt U32) (fun s' => Ret (required_props [("secs", s); ("nanos", s')])))
  | TSystemTime =>
      Call (TInt U64) (fun s => Call (TInt U32) (fun s' =>
        Ret (required_props [("secs_since_epoch", s); ("nanos_since_epoch", s')])))
  | TOsString =>
      Call (TSeq (TInt U8)) (fun s => Call (TSeq (TInt U16)) (fun s' => Ret (os_string_schema s s')))
  | TCString => ReadSettings (fun st => Ret (c_string_schema (s_contract st)))
  | TEither l r => Sub l (fun s => Sub r (fun s' => Ret (either_schema s s')))
  | TArrayVec n t => Sub t (fun s => Ret (array_vec_schema n s))
  | TBytes => ReadSettings (fun st => Sub (TInt U8) (fun s => Ret (bytes1_schema (s_contract st) s)))
  | TTimeDelta => Ret time_delta_schema
  | TFwd t | TWeak t => body t
  | TAdt n cs ts => ReadSettings (fun st => decl_prog (s_contract st) (it_decl (items n) cs ts))
  end.

Definition info (t : rty) : tyinfo rty St := TyInfo (type_inline t) (type_name t) (type_id t) (body t).

End Impl.
