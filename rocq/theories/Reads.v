(** What serde reads: the JSON values from which the [Deserialize] implementations of the modelled
    types (std's and those generated by serde_derive, outside /repo) produce a value. Written from
    serde's documentation, independently of the schemas.

    [reads t j]: deserializing [t] from [j] succeeds. The rules are the ways in which the types the
    schemas describe are read; not listed are the other spellings serde accepts (a struct from an array,
    a unit variant from {"A": null}, the full names of days, aliases), flattened enums and maps,
    flattened fields in a struct that denies unknown fields, or of one that does, or that share a name
    with another field, OsString, CString and the decimal types. [TStr] is read as a String: of the other types
    with this schema, SocketAddr reads fewer strings. A conversion ([TryFrom]) and the visitor of a
    JsonSchema_repr enum are taken to succeed on the values of the type they read.

    The rules also ask that the fields' values meet their validation attributes, as code does that
    validates what it has read; serde alone is the case where everything meets them. *)
From Coq Require Import String Ascii List ZArith Bool.
From Verif Require Import Json Validate Utf8 SerValue ValidationAttrs Types Serde.
Import ListNotations.
Open Scope string_scope.
Open Scope list_scope.

Section Reads.
Context {X : Type}.
Variable items : nat -> item X.
Variable text_ok : checks.   (* the texts read as IP addresses, dates, ...; what meets validation attributes *)

(** A key of a map, read by serde_json's key deserializer *)
Inductive reads_key : rty -> string -> Prop :=
| KeyStr s : reads_key TStr s
| KeyChar s : char_count s = 1%Z -> reads_key TChar s
| KeyInt i z : in_range i z = true -> reads_key (TInt i) (show_int z)
| KeyFwd t s : reads_key t s -> reads_key (TFwd t) s.

(** A field that is not in the input: it has a default, or is an Option. (serde also reads a missing Weak and
    a missing field of a type converted from an Option; Accepts.v leaves these out.) *)
Definition may_miss (container_default : bool) (f : field X) : bool :=
  container_default || f_default f || is_option (f_ty f).

(** serde's own structs deny unknown fields. *)
Definition only_keys (ks : list string) (o : map_t) : Prop := forall k x, In (k, x) o -> In k ks.

(** No other variant that is read has the name of [v]. (Of two variants with one name, serde reads the first.) *)
Definition own_name (vs : list (variant X)) (v : variant X) : Prop :=
  forall v', In v' vs -> v_skip_de v' = false -> v_untagged v' = false -> v_de v' = v_de v -> v' = v.

(** The keys a struct looks at, also through its flattened fields *)
Inductive takes_key : rty -> string -> Prop :=
| TkStruct i cs ts def fs f k : d_data (it_decl (items i) cs ts) = DStruct def (Struct fs) -> In f fs -> f_skip_de f = false ->
    field_takes f k -> takes_key (TAdt i cs ts) k
| TkFwd t k : takes_key t k -> takes_key (TFwd t) k
| TkWeak t k : takes_key (strip_option t) k -> takes_key (TWeak t) k
with field_takes : field X -> string -> Prop :=
| TkName f : f_flatten f = false -> field_takes f (f_de f)
| TkFlat f k : f_flatten f = true -> takes_key (strip_option (f_ty f)) k -> field_takes f k.
(** No two fields look at the same key. *)
Definition taken (fs : list (field X)) : list (field X) := filter (fun f => negb (f_skip_de f)) fs.
Definition own_keys (fs : list (field X)) : Prop :=
  ForallOrdPairs (fun f g => forall k, field_takes f k -> field_takes g k -> False) (taken fs).

(** A flattened map reads what its struct's own fields and the flattened structs before it have left.
    A flattened struct removes what it reads only if it has no flattened fields itself. *)
Definition is_map (t : rty) : bool := match t with TMap _ _ => true | _ => false end.
Definition closed_struct (t : rty) : Prop := exists i cs ts def fs,
  t = TAdt i cs ts /\ d_data (it_decl (items i) cs ts) = DStruct def (Struct fs) /\ forall f, In f (taken fs) -> f_flatten f = false.
Definition left_over (fs before : list (field X)) (n : string) : Prop :=
  (forall g, In g (taken fs) -> f_flatten g = false -> f_de g <> n)
  /\ (forall g, In g before -> f_flatten g = true -> closed_struct (f_ty g) -> ~ takes_key (f_ty g) n).

Inductive reads : rty -> json -> Prop :=
| RStr s : reads TStr (JStr s)
| RBool b : reads TBool (JBool b)
| RUnit : reads TUnit JNull
| RChar s : char_count s = 1%Z -> reads TChar (JStr s)
| RF32 n : reads TF32 (JNum n)
| RF64 n : reads TF64 (JNum n)
| RAny j : reads TAny j
| RNumber n : reads TNumber (JNum n)
| RInt i z : in_range i z = true -> reads (TInt i) (JNum (NInt z))
| RNonZero i z : in_range i z = true -> z <> 0%Z -> reads (TNonZero i) (JNum (NInt z))
| RText k s : k <> Weekday -> k <> Decimal -> text_ok k s = true -> reads (TText k) (JStr s)
| RWeekday s : In s weekdays -> reads (TText Weekday) (JStr s)
| RNone t : reads (TOption t) JNull
| RSome t j : reads t j -> reads (TOption t) j
| RSeq t l : Forall (reads t) l -> reads (TSeq t) (JArr l)
| RSet t l : Forall (reads t) l -> reads (TSet t) (JArr l)
| RArray n t l : List.length l = n -> Forall (reads t) l -> reads (TArray n t) (JArr l)
| RTuple ts l : Forall2 reads ts l -> reads (TTuple ts) (JArr l)
| RMap k t o : (forall n x, In (n, x) o -> reads_key k n) -> (forall n x, In (n, x) o -> reads t x) -> reads (TMap k t) (JObj o)
| ROk t e j : reads t j -> reads (TResult t e) (JObj [("Ok", j)])
| RErr t e j : reads e j -> reads (TResult t e) (JObj [("Err", j)])
| RUnbounded t : reads (TBound t) (JStr "Unbounded")
| RBound k t j : k = "Included" \/ k = "Excluded" -> reads t j -> reads (TBound t) (JObj [(k, j)])
| RRange t o a b : only_keys ["start"; "end"] o -> mget "start" o = Some a -> mget "end" o = Some b -> reads t a -> reads t b -> reads (TRange t) (JObj o)
| RDuration o s n : only_keys ["secs"; "nanos"] o -> mget "secs" o = Some (JNum (NInt s)) -> mget "nanos" o = Some (JNum (NInt n)) ->
    in_range U64 s = true -> in_range U32 n = true -> in_range U64 (s + n / 1000000000) = true -> reads TDuration (JObj o)
| RSystemTime o s n : only_keys ["secs_since_epoch"; "nanos_since_epoch"] o ->
    mget "secs_since_epoch" o = Some (JNum (NInt s)) -> mget "nanos_since_epoch" o = Some (JNum (NInt n)) ->
    in_range U64 s = true -> in_range U32 n = true -> in_range I64 (s + n / 1000000000) = true -> reads TSystemTime (JObj o)
| RLeft a b j : reads a j -> reads (TEither a b) (JObj [("Left", j)])
| RRight a b j : reads b j -> reads (TEither a b) (JObj [("Right", j)])
| RArrayVec n t l : List.length l <= n -> Forall (reads t) l -> reads (TArrayVec n t) (JArr l)
| RBytes l : Forall (reads (TInt U8)) l -> reads TBytes (JArr l)
| RBytesText s : reads TBytes (JStr s)
| RTimeDelta s n : time_delta_ok s n = true -> reads TTimeDelta (JArr [JNum (NInt s); JNum (NInt n)])
| RFwd t j : reads t j -> reads (TFwd t) j
| RWeak t j : reads (TOption t) j -> reads (TWeak t) j   (* the result is a dangling pointer *)
| RAdt i cs ts j : reads_data (d_deny (it_decl (items i) cs ts)) (d_data (it_decl (items i) cs ts)) j -> reads (TAdt i cs ts) j

(** A struct, or the contents of a variant; [def]: the container has a default, [deny]: it denies
    unknown fields *)
with reads_style : bool -> bool -> style X -> json -> Prop :=
| RsUnit def deny : reads_style def deny Unit JNull
| RsNewtype def deny f j : f_skip_de f = false -> reads (f_ty f) j -> meets text_ok (f_valid f) j = true -> reads_style def deny (Newtype f) j
| RsTuple def deny fs l :
    Forall2 reads (map f_ty (filter (fun f => negb (f_skip_de f)) fs)) l ->
    Forall2 (fun f j => meets text_ok (f_valid f) j = true) (filter (fun f => negb (f_skip_de f)) fs) l -> reads_style def deny (Tuple fs) (JArr l)
| RsStruct def deny fs o :
    own_keys fs ->
    (forall f x, In f fs -> f_skip_de f = false -> f_flatten f = false -> mget (f_de f) o = Some x -> reads (f_ty f) x) ->
    (forall f x, In f fs -> f_skip_de f = false -> f_flatten f = false -> mget (f_de f) o = Some x -> meets text_ok (f_valid f) x = true) ->
    (forall f, In f fs -> f_skip_de f = false -> f_flatten f = false -> mget (f_de f) o = None -> may_miss def f = true) ->
    (forall f, In f fs -> f_skip_de f = false -> f_flatten f = true -> no_checks (f_valid f)) ->
    (forall f, In f fs -> f_skip_de f = false -> f_flatten f = true -> reads_flat (f_ty f) o) ->
    (forall before f after k t n x, taken fs = (before ++ f :: after)%list -> f_flatten f = true -> f_ty f = TMap k t ->
       In (n, x) o -> left_over fs before n -> reads_key k n) ->
    (forall before f after k t n x, taken fs = (before ++ f :: after)%list -> f_flatten f = true -> f_ty f = TMap k t ->
       In (n, x) o -> left_over fs before n -> reads t x) ->
    (deny = true -> (forall f, In f fs -> f_flatten f = false)
                    /\ forall k x, In (k, x) o -> exists f, In f fs /\ f_skip_de f = false /\ f_de f = k) ->
    reads_style def deny (Struct fs) (JObj o)

(** A flattened field, from an object with other keys too. An Option is None if its contents cannot
    be read; a Weak is dangling in any case. The entries of a map are described above. *)
with reads_flat : rty -> map_t -> Prop :=
| RfOption t o : reads_flat (TOption t) o
| RfWeak t o : reads_flat (TWeak t) o
| RfMap k t o : reads_flat (TMap k t) o
| RfFwd t o : reads_flat t o -> reads_flat (TFwd t) o
| RfStruct i cs ts def fs o : d_data (it_decl (items i) cs ts) = DStruct def (Struct fs) -> d_deny (it_decl (items i) cs ts) = false ->
    reads (TAdt i cs ts) (JObj o) -> reads_flat (TAdt i cs ts) o

(** One variant of an enum *)
with reads_variant : bool -> tagging -> variant X -> json -> Prop :=
| RvUntagged deny tg v j : tg = Untagged \/ v_untagged v = true -> reads_style false deny (v_style v) j -> reads_variant deny tg v j
| RvName deny v : v_untagged v = false -> v_style v = Unit -> reads_variant deny External v (JStr (v_de v))
| RvExternal deny v j : v_untagged v = false -> v_style v <> Unit -> reads_style false deny (v_style v) j ->
    reads_variant deny External v (JObj [(v_de v, j)])
| RvInternalUnit deny tag v o : v_untagged v = false -> v_style v = Unit -> mget tag o = Some (JStr (v_de v)) ->
    reads_variant deny (Internal tag) v (JObj o)
| RvInternalNewtype deny tag v o f : v_untagged v = false -> v_style v = Newtype f -> f_skip_de f = false ->
    mget tag o = Some (JStr (v_de v)) -> reads (f_ty f) (JObj (mdel tag o)) -> meets text_ok (f_valid f) (JObj (mdel tag o)) = true ->
    reads_variant deny (Internal tag) v (JObj o)
| RvInternalStruct deny tag v o fs : v_untagged v = false -> v_style v = Struct fs ->
    mget tag o = Some (JStr (v_de v)) -> reads_style false deny (Struct fs) (JObj (mdel tag o)) ->
    reads_variant deny (Internal tag) v (JObj o)
| RvAdjacentUnit deny tag content v o : v_untagged v = false -> v_style v = Unit ->
    mget tag o = Some (JStr (v_de v)) -> mget content o = None \/ mget content o = Some JNull ->
    (deny = true -> forall k x, In (k, x) o -> k = tag \/ k = content) ->
    reads_variant deny (Adjacent tag content) v (JObj o)
| RvAdjacent deny tag content v o j : v_untagged v = false -> v_style v <> Unit ->
    mget tag o = Some (JStr (v_de v)) -> mget content o = Some j -> reads_style false deny (v_style v) j ->
    (deny = true -> forall k x, In (k, x) o -> k = tag \/ k = content) ->
    reads_variant deny (Adjacent tag content) v (JObj o)

with reads_data : bool -> data X -> json -> Prop :=
| RdStruct deny def s j : reads_style def deny s j -> reads_data deny (DStruct def s) j
| RdEnum deny tg vs v j : In v vs -> v_skip_de v = false -> tg = Untagged \/ v_untagged v = true \/ own_name vs v ->
    reads_variant deny tg v j -> reads_data deny (DEnum tg vs) j
| RdRepr deny zs z : In z zs -> reads_data deny (DRepr zs) (JNum (NInt z))
| RdFrom deny t into own j : reads t j -> reads_data deny (DConv (Some t) into own) j
| RdOwn deny into own j : reads_data deny own j -> reads_data deny (DConv None into own) j.

(** ** The JSON values considered *)
(** Proper objects, and no number with a zero fractional part (1.0) in the place of an integer *)
Fixpoint exact (j : json) : bool :=
  match j with
  | JNum (NFlt m e) => negb (num_integral (NFlt m e))
  | JArr l => forallb exact l
  | JObj o => forallb (fun kx => exact (snd kx)) o
  | _ => true
  end.
Definition instance (j : json) : Prop := wf j = true /\ exact j = true.

(** ** The types considered *)
(** Which type's schema stands for a field *)
Definition f_read (f : field X) : rty := if f_required f then strip_option (f_ty f) else f_ty f.

(** A value of the type [w] is read from the whole of the JSON value that [u] is read from, or from
    that without the tag of an enum. *)
Definition style_passes (s : style X) (w : rty) : Prop :=
  match s with
  | Newtype f => w = f_read f
  | Struct fs => exists f, In f fs /\ f_flatten f = true /\ w = strip_option (f_ty f)
  | _ => False
  end.
Definition whole_contents (tg : tagging) (v : variant X) : Prop :=
  tg = Untagged \/ v_untagged v = true \/ exists tag, tg = Internal tag.
Fixpoint data_passes (d : data X) (w : rty) : Prop :=
  match d with
  | DStruct _ s => style_passes s w
  | DEnum tg vs => exists v, In v vs /\ whole_contents tg v /\ style_passes (v_style v) w
  | DRepr _ => False
  | DConv from _ own => match from with Some t => w = t | None => data_passes own w end
  end.
Fixpoint passes (u w : rty) : Prop :=
  match u with
  | TOption t => w = t
  | TFwd t | TWeak t => passes t w
  | TAdt i cs ts => data_passes (d_data (it_decl (items i) cs ts)) w
  | _ => False
  end.

Section Fragment.
(** What is asked of annotations: they must not be keywords of the schema. *)
Variable meta_ok : list (string * json) -> Prop.

(** Validation attributes other than [required] replace keywords of the field's type, or have no
    effect where its schema is a reference. Covered are those that narrow the type: a format only on strings and
    collections, the bounds of an integer within its type, [inner] only on collections. *)
Definition within (i : ity) (o : option json) : Prop :=
  match o with Some (JNum (NInt z)) => in_range i z = true | Some _ => False | None => True end.
Fixpoint narrows (t : rty) (a : vattrs) : Prop :=
  match t with
  | TStr | TNumber => one_pattern a /\ va_inner a = None
  | TF32 | TF64 => one_pattern a /\ va_inner a = None /\ va_format a = None
  | TInt i => one_pattern a /\ va_inner a = None /\ va_format a = None
              /\ match va_range a with
                 | Some l => within i (orelse (lr_min l) (lr_equal l)) /\ within i (orelse (lr_max l) (lr_equal l))
                 | None => True end
  | TSeq t | TSet t => one_pattern a /\ match va_inner a with Some i => narrows t i | None => True end
  | TOption t | TFwd t => narrows t a
  | _ => False
  end.
Definition readable_field (f : field X) : Prop := meta_ok (f_meta f) /\ (no_checks (f_valid f) \/ narrows (f_read f) (f_valid f)).
(** A struct with named fields that ignores unknown ones and does not collect them in a map *)
Definition open_struct (t : rty) : Prop := exists i cs ts def fs,
  t = TAdt i cs ts /\ d_data (it_decl (items i) cs ts) = DStruct def (Struct fs) /\ d_deny (it_decl (items i) cs ts) = false
  /\ forall f, In f (taken fs) -> f_flatten f = true -> is_map (f_ty f) = false.
(** A type whose schema is not [false], which is that of an enum without variants (and so can be that of
    a newtype or conversion) *)
Definition solid_data (d : data X) : Prop :=
  match d with DStruct _ (Newtype _) | DEnum _ [] | DConv _ _ _ => False | _ => True end.
Fixpoint solid (t : rty) : Prop :=
  match t with
  | TFwd t | TWeak t => solid t
  | TAdt i cs ts => solid_data (d_data (it_decl (items i) cs ts))
  | _ => True
  end.
Definition flat_map (t : rty) : Prop := match t with TMap _ v => solid v | _ => False end.
Definition readable_flat (f : field X) : Prop :=
  no_checks (f_valid f) /\ (open_struct (strip_option (f_ty f)) \/ flat_map (f_ty f)).
(** There is at most one flattened map, after all other flattened fields, which are then structs without
    flattened fields. *)
Definition map_last (fs : list (field X)) : Prop :=
  ForallOrdPairs (fun g f => f_flatten g = true -> f_flatten f = true ->
    is_map (f_ty g) = false /\ (is_map (f_ty f) = true -> closed_struct (f_ty g))) (taken fs).
Definition readable_style (deny : bool) (s : style X) : Prop :=
  match s with
  | Unit => True
  | Newtype f => f_skip_de f = false /\ readable_field f
  | Tuple fs => forall f, In f fs -> readable_field f
  | Struct fs => (forall f, In f fs -> if f_flatten f then deny = false /\ readable_flat f else readable_field f) /\ own_keys fs /\ map_last fs
  end.
Definition readable_variant (deny : bool) (tg : tagging) (v : variant X) : Prop :=
  meta_ok (v_meta v) /\ readable_style deny (v_style v)
  /\ (v_untagged v = false ->
      match tg with
      | External | Untagged => True
      | Internal tag => match v_style v with
                        | Unit => True
                        | Struct fs => forall f, In f (taken fs) -> ~ field_takes f tag
                        | Newtype f => no_checks (f_valid f) /\ open_struct (f_ty f) /\ ~ takes_key (f_ty f) tag
                        | _ => False end
      | Adjacent tag content => tag <> content /\ (v_style v = Unit -> deny = true)
      end).
Fixpoint readable_data (deny : bool) (d : data X) : Prop :=
  match d with
  | DStruct _ s => readable_style deny s
  | DEnum tg vs => (forall v, In v vs -> readable_variant deny tg v)
                   /\ (tg = Untagged \/ NoDup (map v_de (filter (fun v => negb (v_skip_de v) && negb (v_untagged v)) vs)))
  | DRepr _ => True
  | DConv from _ own => match from with Some _ => True | None => readable_data deny own end
  end.
Fixpoint key_string (k : rty) : Prop := match k with TStr => True | TFwd k => key_string k | _ => False end.
Fixpoint readable_type (t : rty) : Prop :=
  match t with
  | TInt i | TNonZero i => i <> I128 /\ i <> U128   (* not read from buffered input *)
  | TMap k _ => key_string k
  | TFwd t | TWeak t => readable_type t
  | TAdt i cs ts => meta_ok (d_meta (it_decl (items i) cs ts))
                    /\ readable_data (d_deny (it_decl (items i) cs ts)) (d_data (it_decl (items i) cs ts))
  | TText SemVer | TText Decimal | TResult _ _ | TBound _ | TRange _ | TDuration | TSystemTime | TOsString | TCString | TTimeDelta => False
  | _ => True
  end.
End Fragment.
End Reads.
