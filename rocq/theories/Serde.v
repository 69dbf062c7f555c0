(** SPECIFICATION (not a model of schemars code): what serde and its derive macro do with values of
    the types of Types.v. serde is a dependency and is not in /repo; this follows its documented
    behaviour and its source (serde 1.0: ser/impls.rs, private/ser.rs, serde_derive/src/ser.rs).

    A Rust value is an [rval]; the type says how it is read. Serializing gives the calls made to the
    serializer ([sval], SerValue.v), or [None] if the value is not one of the type or serde fails. *)
From Coq Require Import String Ascii List ZArith Bool.
From Verif Require Import Json SchemaApi Validate Private Generate SerValue ValidationAttrs Types.
Import ListNotations.
Open Scope string_scope.
Open Scope list_scope.

Inductive rval :=
| RBool (b : bool)
| RInt (z : Z)
| RFloat (f : option (Z * Z))     (* m * 2^e; [None] is NaN or an infinity *)
| RStr (s : string)               (* str, String, char, paths, IP addresses (by their text) *)
| RUnit
| RNone
| RSome (v : rval)
| RSeq (l : list rval)            (* sequences, sets, arrays, tuples, the fields of a struct *)
| RMap (l : list (rval * rval))
| RAny (j : json)                 (* serde_json::Value, Number *)
| RDead                           (* a Weak whose referent is gone *)
| RVariant (i : nat) (l : list rval). (* the i-th variant with the values of its fields *)

(** [isize] and [usize] have 64 bits. *)
Definition int_range (i : ity) : Z * Z :=
  (match i with
   | I8 => (- 2 ^ 7, 2 ^ 7 - 1) | I16 => (- 2 ^ 15, 2 ^ 15 - 1) | I32 => (- 2 ^ 31, 2 ^ 31 - 1)
   | I64 | ISize => (- 2 ^ 63, 2 ^ 63 - 1) | I128 => (- 2 ^ 127, 2 ^ 127 - 1)
   | U8 => (0, 2 ^ 8 - 1) | U16 => (0, 2 ^ 16 - 1) | U32 => (0, 2 ^ 32 - 1)
   | U64 | USize => (0, 2 ^ 64 - 1) | U128 => (0, 2 ^ 128 - 1)
   end)%Z.
Definition in_range (i : ity) (z : Z) : bool :=
  (fst (int_range i) <=? z)%Z && (z <=? snd (int_range i))%Z.

Definition num_sval (n : number) : sval :=
  match n with NInt z => VInt z | NFlt m e => VFloat (Some (m, e)) end.
(** [impl Serialize for serde_json::Value] *)
Fixpoint any_sval (j : json) : sval :=
  match j with
  | JNull => VUnit
  | JBool b => VBool b
  | JNum n => num_sval n
  | JStr s => VStr s
  | JArr l => VSeq (map any_sval l)
  | JObj m => VMap (map (fun kv => match kv with (k, x) => (VStr k, any_sval x) end) m)
  end.

(** The JSON of a value as [serde_json] would print it, integers of any size included
    ([to_json] is [serde_json::to_value], which refuses integers beyond 64 bits). *)
Fixpoint json_of (v : sval) : option json :=
  match v with
  | VBool b => Some (JBool b)
  | VInt z => Some (JNum (NInt z))
  | VFloat (Some (m, e)) => Some (JNum (NFlt m e))
  | VFloat None => Some JNull
  | VChar s | VStr s | VDisplay s => Some (JStr s)
  | VBytes l => Some (JArr (map (fun b => JNum (NInt b)) l))
  | VNone | VUnit | VUnitStruct _ => Some JNull
  | VSome v => json_of v
  | VUnitVariant n => Some (JStr n)
  | VNewtypeStruct _ v => json_of v
  | VNewtypeVariant n v => option_map (fun j => JObj [(n, j)]) (json_of v)
  | VSeq l | VTuple l | VTupleStruct _ l => option_map JArr (omap json_of l)
  | VTupleVariant n l => option_map (fun js => JObj [(n, JArr js)]) (omap json_of l)
  | VMap l | VCollectMap l =>
      option_map (fun es => JObj (mk es))
        (omap (fun kv => match kv with (a, b) =>
                         match key_json a, json_of b with Some k, Some j => Some (k, j) | _, _ => None end end) l)
  | VStruct _ l =>
      option_map (fun es => JObj (mk es))
        (omap (fun kv => match kv with (k, b) => option_map (pair k) (json_of b) end) l)
  | VStructVariant n l =>
      option_map (fun es => JObj [(n, JObj (mk es))])
        (omap (fun kv => match kv with (k, b) => option_map (pair k) (json_of b) end) l)
  end.

(** ** Flattening and internal tagging (serde's private/ser.rs) *)
Definition str_entries (l : list (sval * sval)) : option (list (string * sval)) :=
  omap (fun kv => match kv with (a, b) => option_map (fun k => (k, b)) (key_json a) end) l.

(** [FlatMapSerializer]: the entries a flattened value adds to the map *)
Fixpoint flat_entries (v : sval) : option (list (string * sval)) :=
  match v with
  | VNone | VUnit | VUnitStruct _ => Some []
  | VSome v | VNewtypeStruct _ v => flat_entries v
  | VUnitVariant n => Some [(n, VUnit)]
  | VNewtypeVariant n v => Some [(n, v)]
  | VTupleVariant n l => Some [(n, VTuple l)]
  | VMap l | VCollectMap l => str_entries l
  | VStruct _ l => Some l
  | VStructVariant n l => Some [(n, VStruct "" l)]
  | _ => None
  end.

(** [TaggedSerializer]: the value of an internally tagged newtype variant *)
Fixpoint tagged (tag variant : string) (v : sval) : option sval :=
  let with_tag es := VStruct "" ((tag, VStr variant) :: es) in
  match v with
  | VUnit | VUnitStruct _ => Some (with_tag [])
  | VNewtypeStruct _ v => tagged tag variant v
  | VUnitVariant n => Some (with_tag [(n, VUnit)])
  | VNewtypeVariant n v => Some (with_tag [(n, v)])
  | VTupleVariant n l => Some (with_tag [(n, VTuple l)])
  | VStructVariant n l => Some (with_tag [(n, VStruct "" l)])
  | VMap l | VCollectMap l => option_map with_tag (str_entries l)
  | VStruct _ l => Some (with_tag l)
  | _ => None
  end.

(** ** Values *)
(** [chrono::TimeDelta] (outside /repo): whole seconds and nanoseconds, at most [i64::MAX] milliseconds
    in either direction *)
Definition time_delta_ok (secs nanos : Z) : bool :=
  ((0 <=? nanos) && (nanos <? 1000000000) && (Z.abs (secs * 1000000000 + nanos) <=? 9223372036854775807 * 1000000))%Z.

(** What the values of the program hold: the texts written for the types of strings (addresses, dates,
    ...), and the JSON that meets the validation attributes of a field *)
Record checks := Checks { texts :> txt -> string -> bool; meets : vattrs -> json -> bool }.

Section Ser.
Variable items : nat -> item rval.
Variable text_ok : checks.

(** With [strict] set, some values that serde would serialize are refused ([None]): those the
    properties have to exclude. They are the NaN and infinite floats, dead Weak pointers, sets of
    which two elements have the same JSON, [None] in a field marked [schemars(required)], and values of
    a field that do not meet its validation attributes. *)
Variable strict : bool.

(** A field's value and how to serialize it at a type *)
Definition part := (rval * (rty -> option sval))%type.

Definition skip_now (f : field rval) (x : rval) : bool :=
  match f_skip_if f with Some p => p x | None => false end.

(** [None] of a (nested) option *)
Fixpoint present (t : rty) (v : rval) : bool :=
  match t, v with
  | TOption t', RSome v' => present t' v'
  | TOption _, _ => false
  | (TFwd t' | TWeak t'), _ => present t' v
  | _, _ => true
  end.

(** The validation attributes of a flattened field are not used (schema_exprs.rs:690-701). *)
Definition ser_checked (f : field rval) (r : option sval) : option sval :=
  match r with
  | Some v => if strict && negb (f_flatten f)
                 && match json_of v with Some j => negb (meets text_ok (f_valid f) j) | None => false end
              then None else Some v
  | None => None
  end.
Definition ser_field (f : field rval) (x : part) : option sval :=
  if strict && f_required f && negb (present (f_ty f) (fst x)) then None else ser_checked f (snd x (f_ty f)).

(** The names a struct gives its own fields *)
Definition own_names (fs : list (field rval)) : list string :=
  map f_ser (filter (fun f => negb (f_skip_ser f) && negb (f_flatten f)) fs).
(** A flattened map *)
Definition flat_map_ty (f : field rval) : bool := match strip_option (f_ty f) with TMap _ _ => true | _ => false end.
Definition clashes (names : list string) (f : field rval) (es : list (string * sval)) : bool :=
  strict && flat_map_ty f && existsb (fun kv => existsb (String.eqb (fst kv)) names) es.

(** The entries of a struct or struct variant, [names] being the names of its fields: serde_derive
    ser.rs [serialize_struct_visitor] *)
Fixpoint ser_fields (names : list string) (fs : list (field rval)) (xs : list part) : option (list (string * sval)) :=
  match fs, xs with
  | [], [] => Some []
  | f :: fs', x :: xs' =>
      match ser_fields names fs' xs' with
      | None => None
      | Some rest =>
          if f_skip_ser f || skip_now f (fst x) then Some rest
          else match ser_field f x with
               | None => None
               | Some v =>
                   if f_flatten f then
                     match flat_entries v with
                     | Some es => if clashes names f es then None else Some (es ++ rest)
                     | None => None
                     end
                   else Some ((f_ser f, v) :: rest)
               end
      end
  | _, _ => None
  end.

(** The elements of a tuple struct or variant: [serialize_tuple_struct_visitor] *)
Fixpoint ser_elements (fs : list (field rval)) (xs : list part) : option (list sval) :=
  match fs, xs with
  | [], [] => Some []
  | f :: fs', x :: xs' =>
      match ser_elements fs' xs' with
      | None => None
      | Some rest =>
          if f_skip_ser f || skip_now f (fst x) then Some rest
          else option_map (fun v => v :: rest) (ser_field f x)
      end
  | _, _ => None
  end.

Definition ser_one (f : field rval) (xs : list part) : option sval :=
  match xs with [x] => ser_field f x | _ => None end.

(** A struct with a flattened field is serialized as a map. *)
Definition struct_value (name : string) (fs : list (field rval)) (es : list (string * sval)) : sval :=
  if existsb f_flatten fs then VMap (map (fun kv => match kv with (k, v) => (VStr k, v) end) es)
  else VStruct name es.

(** serde_derive ser.rs [serialize_body] for structs *)
Definition ser_struct (name : string) (s : style rval) (xs : list part) : option sval :=
  match s with
  | Unit => match xs with [] => Some (VUnitStruct name) | _ => None end
  | Newtype f => option_map (VNewtypeStruct name) (ser_one f xs)
  | Tuple fs => option_map (VTupleStruct name) (ser_elements fs xs)
  | Struct fs => option_map (struct_value name fs) (ser_fields (own_names fs) fs xs)
  end.

(** [effective_style]: a newtype variant whose field is skipped is a unit variant *)
Definition effective_style (s : style rval) : style rval :=
  match s with Newtype f => if f_skip_ser f then Unit else s | _ => s end.

Definition ser_untagged (s : style rval) (xs : list part) : option sval :=
  match effective_style s with
  | Unit => Some VUnit
  | Newtype f => ser_one f xs
  | Tuple fs => option_map VTuple (ser_elements fs xs)
  | Struct fs => option_map (struct_value "" fs) (ser_fields (own_names fs) fs xs)
  end.

(** [serialize_variant] *)
Definition ser_variant (t : tagging) (v : variant rval) (xs : list part) : option sval :=
  if v_skip_ser v then None
  else if v_untagged v then ser_untagged (v_style v) xs
  else
    let n := v_ser v in
    match t with
    | External =>
        match effective_style (v_style v) with
        | Unit => Some (VUnitVariant n)
        | Newtype f => option_map (VNewtypeVariant n) (ser_one f xs)
        | Tuple fs => option_map (VTupleVariant n) (ser_elements fs xs)
        | Struct fs =>
            option_map (fun es => if existsb f_flatten fs then VNewtypeVariant n (struct_value "" fs es)
                                  else VStructVariant n es) (ser_fields (own_names fs) fs xs)
        end
    | Internal tag =>
        match effective_style (v_style v) with
        | Unit => Some (VStruct "" [(tag, VStr n)])
        | Newtype f => match ser_one f xs with Some x => tagged tag n x | None => None end
        | Tuple _ => None
        | Struct fs => option_map (fun es => VStruct "" ((tag, VStr n) :: es)) (ser_fields (own_names fs) fs xs)
        end
    | Adjacent tag content =>
        match effective_style (v_style v) with
        | Unit => Some (VStruct "" [(tag, VUnitVariant n)])
        | _ => option_map (fun x => VStruct "" [(tag, VUnitVariant n); (content, x)]) (ser_untagged (v_style v) xs)
        end
    | Untagged => ser_untagged (v_style v) xs
    end.

(** [xs] are the values in an [RSeq] or [RVariant]. With [#[serde(into = "T")]] a value is
    [RSeq [v]], where [v] is the [T] it is converted into. An enum that derives Serialize_repr is
    written as the number of the variant. *)
Fixpoint ser_data (name : string) (d : data rval) (v : rval) (xs : list part) : option sval :=
  match d with
  | DStruct _ s => match v with RSeq _ => ser_struct name s xs | _ => None end
  | DEnum t vs => match v with
                  | RVariant i _ => match nth_error vs i with Some w => ser_variant t w xs | None => None end
                  | _ => None
                  end
  | DRepr zs => match v with RVariant i [] => option_map VInt (nth_error zs i) | _ => None end
  | DConv _ (Some t) _ => match v, xs with RSeq _, [x] => snd x t | _, _ => None end
  | DConv _ None own => ser_data name own v xs
  end.
Definition ser_decl (name : string) (d : decl rval) (v : rval) (xs : list part) : option sval :=
  ser_data name (d_data d) v xs.

Definition distinct_json (l : list sval) : bool :=
  match omap json_of l with Some js => all_distinct js | None => true end.

Definition ser_tuple : list rty -> list part -> option (list sval) :=
  fix go ts xs :=
    match ts, xs with
    | [], [] => Some []
    | t :: ts', x :: xs' => match snd x t, go ts' xs' with Some v, Some vs => Some (v :: vs) | _, _ => None end
    | _, _ => None
    end.

Definition check (b : bool) (x : option sval) : option sval := if b then x else None.

Definition u64_u32 (name a b : string) (v : rval) : option sval :=
  match v with
  | RSeq [RInt s; RInt n] =>
      check (in_range U64 s && in_range U32 n) (Some (VStruct name [(a, VInt s); (b, VInt n)]))
  | _ => None
  end.

Fixpoint ser (v : rval) : rty -> option sval :=
  let seq l t := omap (fun x => ser x t) l in
  let parts l := map (fun x => (x, ser x)) l in
  fix go (t : rty) : option sval :=
    match t with
    | TFwd t' => go t'
    | TWeak t' => match v with
                  | RDead => if strict then None else Some VNone
                  | _ => option_map VSome (go t')
                  end
    | TStr => match v with RStr s => Some (VStr s) | _ => None end
    | TBool => match v with RBool b => Some (VBool b) | _ => None end
    | TUnit => match v with RUnit => Some VUnit | _ => None end
    | TChar => match v with RStr s => check (Z.eqb (char_count s) 1) (Some (VChar s)) | _ => None end
    | TF32 | TF64 => match v with
                     | RFloat None => if strict then None else Some (VFloat None)
                     | RFloat f => Some (VFloat f)
                     | _ => None
                     end
    | TAny => match v with RAny j => Some (any_sval j) | _ => None end
    | TNumber => match v with RAny (JNum n) => Some (num_sval n) | _ => None end
    | TInt i => match v with RInt z => check (in_range i z) (Some (VInt z)) | _ => None end
    | TNonZero i => match v with RInt z => check (in_range i z && negb (Z.eqb z 0)) (Some (VInt z)) | _ => None end
    | TText Weekday => match v with RStr s => check (existsb (String.eqb s) weekdays) (Some (VStr s)) | _ => None end
    | TText k => match v with RStr s => check (text_ok k s) (Some (VStr s)) | _ => None end
    | TOption t' => match v with
                    | RNone => Some VNone
                    | RSome x => option_map VSome (ser x t')
                    | _ => None
                    end
    | TSeq t' => match v with RSeq l => option_map VSeq (seq l t') | _ => None end
    | TSet t' => match v with
                 | RSeq l => match seq l t' with
                             | Some vs => check (negb strict || distinct_json vs) (Some (VSeq vs))
                             | None => None end
                 | _ => None
                 end
    | TArray n t' => match v with
                     | RSeq l => if Nat.eqb (List.length l) n then option_map VTuple (seq l t') else None
                     | _ => None
                     end
    | TTuple ts => match v with RSeq l => option_map VTuple (ser_tuple ts (parts l)) | _ => None end
    | TMap k t' =>
        match v with
        | RMap l => option_map VCollectMap
                      (omap (fun kv => match kv with (a, b) =>
                               match ser a k, ser b t' with Some x, Some y => Some (x, y) | _, _ => None end end) l)
        | _ => None
        end
    | TResult a b =>
        match v with
        | RVariant 0 [x] => option_map (VNewtypeVariant "Ok") (ser x a)
        | RVariant 1 [x] => option_map (VNewtypeVariant "Err") (ser x b)
        | _ => None
        end
    | TBound a =>
        match v with
        | RVariant 0 [] => Some (VUnitVariant "Unbounded")
        | RVariant 1 [x] => option_map (VNewtypeVariant "Included") (ser x a)
        | RVariant 2 [x] => option_map (VNewtypeVariant "Excluded") (ser x a)
        | _ => None
        end
    | TRange a =>
        match v with
        | RSeq [x; y] => match ser x a, ser y a with
                         | Some x', Some y' => Some (VStruct "Range" [("start", x'); ("end", y')])
                         | _, _ => None end
        | _ => None
        end
    | TDuration => u64_u32 "Duration" "secs" "nanos" v
    | TSystemTime => u64_u32 "SystemTime" "secs_since_epoch" "nanos_since_epoch" v
    | TOsString =>
        match v with
        | RVariant 0 [x] => option_map (VNewtypeVariant "Unix") (ser x (TSeq (TInt U8)))
        | RVariant 1 [x] => option_map (VNewtypeVariant "Windows") (ser x (TSeq (TInt U16)))
        | _ => None
        end
    | TCString =>
        match v with
        | RSeq l => option_map VBytes
                      (omap (fun x => match x with RInt z => if (1 <=? z)%Z && (z <=? 255)%Z then Some z else None
                                              | _ => None end) l)
        | _ => None
        end
    | TEither a b =>
        match v with
        | RVariant 0 [x] => option_map (VNewtypeVariant "Left") (ser x a)
        | RVariant 1 [x] => option_map (VNewtypeVariant "Right") (ser x b)
        | _ => None
        end
    | TArrayVec n t' => match v with
                        | RSeq l => if (List.length l <=? n)%nat then option_map VSeq (seq l t') else None
                        | _ => None
                        end
    | TBytes =>
        match v with
        | RSeq l => option_map VBytes
                      (omap (fun x => match x with RInt z => if (0 <=? z)%Z && (z <=? 255)%Z then Some z else None
                                              | _ => None end) l)
        | _ => None
        end
    | TTimeDelta =>
        match v with
        | RSeq [RInt s; RInt n] =>
            check (time_delta_ok s n) (Some (VTuple [VInt s; VInt n]))
        | _ => None
        end
    | TAdt n cs ts =>
        let d := it_decl (items n) cs ts in
        match v with
        | RSeq l | RVariant _ l => ser_decl (it_name (items n)) d v (parts l)
        | _ => None
        end
    end.

End Ser.

(** serde_json::to_value of a value of type [t] *)
Definition value_json (items : nat -> item rval) (text_ok : checks) (strict : bool)
    (t : rty) (v : rval) : option json :=
  match ser items text_ok strict v t with Some x => to_json x | None => None end.
