(** Model of /repo/schemars_derive/src/attr/mod.rs and attr/doc.rs: the attributes of containers,
    variants and fields that set metadata (title, description, examples, extensions, transforms) or
    say where the schema comes from (with, schema_with), and the statements they turn into. *)
From Coq Require Import String Ascii List Bool.
From Verif Require Import Json Transform SchemaApi Private Rustdoc Attrs.
Import ListNotations.
Open Scope string_scope.

(** An expression written as the value of an attribute item: a string literal, or other code. Other
    code is described by the text it has as a title or description, by the JSON value that
    serde_json::to_value gives for it as an example ([None]: an error), and by what it does to a
    schema as a transform. *)
Inductive expr :=
| ELit (s : string)
| ECode (text : string) (value : option json) (transform : json -> json).
Definition expr_text (e : expr) : string := match e with ELit s => s | ECode t _ _ => t end.
Definition expr_json (e : expr) : option json := match e with ELit s => Some (JStr s) | ECode _ v _ => v end.

(** attr/custom_meta.rs:5-11 [CustomMeta]: `name`, `name = e`, `name(...)` or `!name`. The
    arguments of a list are only modelled for what they are as extensions ([None]: they do not parse
    as such). *)
Inductive shape := SPath | SValue (e : expr) | SList (args : option (list (string * json))) | SNot.
(** [m_name = None]: a path with several segments, written [m_path] *)
Record meta := Meta { m_name : option string; m_path : string; m_shape : shape }.

(** The attribute an item is in ([attr_type]) *)
Inductive origin := FromSchemars | FromSerde.
Definition is_schemars (o : origin) : bool := match o with FromSchemars => true | FromSerde => false end.

Inductive error :=
| EDuplicate (name : string)              (* duplicate schemars attribute item *)
| EExclusive (name other : string)        (* cannot contain both *)
| EValue (name : string)                  (* expected ... to have a value *)
| EString (name : string)                 (* expected ... to have a string value *)
| EParse (text : string)                  (* failed to parse ... as a ... *)
| EList (name : string)                   (* expected ... to be of the form `name(...)` *)
| ESyntax (name : string)                 (* arguments that do not parse *)
| EUnexpected (name : string)             (* unexpected value of ... *)
| EExtension (key : string)               (* Duplicate extension key *)
| EExample (text : string)                (* string literal that may be a function path *)
| ETransform (text : string)              (* expected a fn, found &str *)
| EEnum                                   (* _unstable_ref_variants can only be used on enums *)
| EUnknown (path : string).               (* unknown schemars attribute *)

(** attr/mod.rs:513-536 [mutual_exclusive_error], [duplicate_error]: only for schemars *)
Definition duplicate (o : origin) (name : string) : list error := if is_schemars o then [EDuplicate name] else [].
Definition exclusive (o : origin) (name other : string) : list error := if is_schemars o then [EExclusive name other] else [].

(** parse_meta.rs:37-52 [parse_name_value_expr] *)
Definition value_expr (name : string) (s : shape) : option expr * list error :=
  match s with SValue e => (Some e, []) | _ => (None, [EValue name]) end.
(** parse_meta.rs:54-76 [require_name_value_lit_str] *)
Definition value_lit (name : string) (s : shape) : option string * list error :=
  match s with SValue (ELit t) => (Some t, []) | _ => (None, [EString name]) end.
(** parse_meta.rs:78-82 [parse_name_value_lit_str], 84-98 [parse_lit_str]; [parses] says which texts
    parse *)
Definition value_parsed (parses : string -> bool) (name : string) (s : shape) : option string * list error :=
  match value_lit name s with
  | (Some t, e) => if parses t then (Some t, e) else (None, (e ++ [EParse t])%list)
  | r => r
  end.
(** parse_meta.rs:11-35 [require_path_only] *)
Definition path_only (name : string) (s : shape) : bool * list error :=
  match s with SPath => (true, []) | SNot => (false, []) | _ => (false, [EUnexpected name]) end.
(** parse_meta.rs:100-106 [parse_extensions], 278-298 [parse_meta_list_with] *)
Definition extensions_of (name : string) (s : shape) : list (string * json) * list error :=
  match s with
  | SList (Some l) => (l, [])
  | SList None => ([], [ESyntax name])
  | _ => ([], [EList name])
  end.

(** attr/mod.rs:26-35 [CommonAttrs]: [doc] and [deprecated] do not come from items *)
Record common := Common {
  c_title : option expr;
  c_description : option expr;
  c_examples : list expr;
  c_extensions : list (string * json);
  c_transforms : list expr
}.
Definition no_common : common := Common None None [] [] [].

(** What a processing function answers: the new state and the errors, or [None] if the item is left *)
Definition handler (A : Type) : Type := string -> shape -> A -> option (A * list error).

(** attr/mod.rs:491-503 [parse_meta] of [AttrCtxt]: every item with a simple name is offered to the
    handler; the items left are kept. *)
Fixpoint parse_meta {A} (h : handler A) (ms : list meta) (a : A) : list meta * A * list error :=
  match ms with
  | [] => ([], a, [])
  | m :: ms' =>
      match m_name m with
      | None => let '(r, a', e) := parse_meta h ms' a in (m :: r, a', e)
      | Some n =>
          match h n (m_shape m) a with
          | Some (a', e) => let '(r, a'', e') := parse_meta h ms' a' in (r, a'', (e ++ e')%list)
          | None => let '(r, a', e) := parse_meta h ms' a in (m :: r, a', e)
          end
      end
  end.

Section Handlers.
(** Which texts parse as a path, an expression, a type *)
Variables parses_path parses_expr parses_type : string -> bool.

(** attr/mod.rs:121-137: adding the extensions of one item *)
Fixpoint add_extensions (l : list (string * json)) (acc : list (string * json)) : list (string * json) * list error :=
  match l with
  | [] => (acc, [])
  | (k, v) :: l' =>
      if existsb (fun e => String.eqb (fst e) k) acc
      then let '(r, e) := add_extensions l' acc in (r, EExtension k :: e)
      else add_extensions l' (acc ++ [(k, v)])%list
  end.

(** attr/mod.rs:85-165 [CommonAttrs::process_meta] *)
Definition common_meta (o : origin) : handler common := fun name s a =>
  if String.eqb name "title" then
    Some (match c_title a with
          | Some _ => (a, duplicate o name)
          | None => let '(t, e) := value_expr name s in
                    (Common t (c_description a) (c_examples a) (c_extensions a) (c_transforms a), e)
          end)
  else if String.eqb name "description" then
    Some (match c_description a with
          | Some _ => (a, duplicate o name)
          | None => let '(d, e) := value_expr name s in
                    (Common (c_title a) d (c_examples a) (c_extensions a) (c_transforms a), e)
          end)
  else if String.eqb name "example" then
    Some (match value_expr name s with
          | (None, e) => (a, e)
          | (Some x, e) =>
              (Common (c_title a) (c_description a) (c_examples a ++ [x]) (c_extensions a) (c_transforms a),
               (e ++ match x with ELit t => if parses_path t then [EExample t] else [] | _ => [] end)%list)
          end)
  else if String.eqb name "extend" then
    Some (let '(l, e) := extensions_of name s in
          let '(x, e') := add_extensions l (c_extensions a) in
          (Common (c_title a) (c_description a) (c_examples a) x (c_transforms a), (e ++ e')%list))
  else if String.eqb name "transform" then
    Some (match value_expr name s with
          | (None, e) => (a, e)
          | (Some (ELit t), e) => (a, (e ++ if parses_expr t then [ETransform t] else [])%list)
          | (Some x, e) => (Common (c_title a) (c_description a) (c_examples a) (c_extensions a) (c_transforms a ++ [x]), e)
          end)
  else None.

(** attr/mod.rs:64-67 [WithAttr] *)
Inductive with_attr := WType (t : string) | WFunction (f : string).

(** attr/mod.rs:264-290 (fields), 409-435 (variants): the items "with" and "schema_with"; those of
    containers, 353-367, only in schemars attributes ([serde_too = false]) *)
Definition with_meta (serde_too : bool) (o : origin) : handler (option with_attr) := fun name s w =>
  if String.eqb name "with" && (serde_too || is_schemars o) then
    Some (match w with
          | Some (WType _) => (w, duplicate o name)
          | Some (WFunction _) => (w, exclusive o name "schema_with")
          | None => let '(t, e) := value_parsed parses_type name s in (option_map WType t, e)
          end)
  else if String.eqb name "schema_with" && is_schemars o then
    Some (match w with
          | Some (WFunction _) => (w, duplicate o name)
          | Some (WType _) => (w, exclusive o name "with")
          | None => let '(f, e) := value_parsed parses_path name s in (option_map WFunction f, e)
          end)
  else None.

(** attr/mod.rs:43-55 [ContainerAttrs] *)
Record container := Container {
  k_crate : option string;
  k_rename : option string;
  k_inline : bool;
  k_ref_variants : bool;
  k_with : option with_attr
}.
Definition no_container : container := Container None None false false None.

(** attr/mod.rs:328-387 [ContainerAttrs::process_meta] *)
Definition container_meta (is_enum : bool) (o : origin) : handler container := fun name s a =>
  if String.eqb name "crate" then
    Some (match k_crate a with
          | Some _ => (a, duplicate o name)
          | None => let '(p, e) := value_parsed parses_path name s in
                    (Container p (k_rename a) (k_inline a) (k_ref_variants a) (k_with a), e)
          end)
  else if String.eqb name "rename" && is_schemars o then
    Some (match k_rename a with
          | Some _ => (a, duplicate o name)
          | None => let '(r, e) := value_lit name s in
                    (Container (k_crate a) r (k_inline a) (k_ref_variants a) (k_with a), e)
          end)
  else if String.eqb name "inline" then
    Some (if k_inline a then (a, duplicate o name)
          else let '(b, e) := path_only name s in
               (Container (k_crate a) (k_rename a) b (k_ref_variants a) (k_with a), e))
  else match with_meta false o name s (k_with a) with
       | Some (w, e) => Some (Container (k_crate a) (k_rename a) (k_inline a) (k_ref_variants a) w, e)
       | None =>
           if String.eqb name "_unstable_ref_variants" && is_schemars o then
             Some (if negb is_enum then (a, [EEnum])
                   else if k_ref_variants a then (a, duplicate o name)
                   else let '(b, e) := path_only name s in
                        (Container (k_crate a) (k_rename a) (k_inline a) b (k_with a), e))
           else None
       end.

(** validation.rs:152-223 [ValidationAttrs::process_meta], in a schemars attribute: which items it
    takes. What it makes of them is modelled in ValidationAttrs.v. *)
Definition validation_names : list string :=
  ["email"; "url"; "ip"; "ipv4"; "ipv6"; "length"; "range"; "required"; "pattern"; "regex"; "contains"; "inner"].
Definition validation_meta : handler unit := fun name _ u => if mem name validation_names then Some (u, []) else None.

(** attr/mod.rs:539-560 [Drop for AttrCtxt], [is_schemars_serde_keyword]: what is left in a schemars
    attribute is an error unless serde parses it *)
Definition is_serde_keyword (m : meta) : bool :=
  match m_name m with Some n => mem n parsed_by_serde | None => false end.
Definition path_str (m : meta) : string := match m_name m with Some n => n | None => m_path m end.
Definition unknown (ms : list meta) : list error :=
  map (fun m => EUnknown (path_str m)) (filter (fun m => negb (is_serde_keyword m)) ms).

(** attr/mod.rs:68-80 [CommonAttrs::populate], without doc and deprecated, followed by
    - 248-258 [FieldAttrs::populate] ([validation = true], [h = with_meta true]),
    - 396-403 [VariantAttrs::populate] ([validation = false], [h = with_meta true]),
    - 310-322 [ContainerAttrs::populate] ([validation = false], [h = container_meta]).
    The errors of the validation attributes are not included. *)
Definition populate {A} (validation : bool) (h : origin -> handler A) (start : A) (schemars serde : list meta)
  : common * A * list error :=
  let '(s1, c1, e1) := parse_meta (common_meta FromSchemars) schemars no_common in
  let '(d1, c2, e2) := parse_meta (common_meta FromSerde) serde c1 in
  let '(s2, _, _) := if validation then parse_meta validation_meta s1 tt else (s1, tt, []) in
  let '(s3, a1, e3) := parse_meta (h FromSchemars) s2 start in
  let '(_, a2, e4) := parse_meta (h FromSerde) d1 a1 in
  (c2, a2, (e1 ++ e2 ++ e3 ++ e4 ++ unknown s3)%list).

(** attr/mod.rs:37-42 [FieldAttrs] (without validation), 57-62 [VariantAttrs], [ContainerAttrs] *)
Definition field_attrs (schemars serde : list meta) := populate true (with_meta true) None schemars serde.
Definition variant_attrs (schemars serde : list meta) := populate false (with_meta true) None schemars serde.
Definition container_attrs (is_enum : bool) (schemars serde : list meta) := populate false (container_meta is_enum) no_container schemars serde.
End Handlers.

(** attr/doc.rs:5-37 [get_doc]: the values of the attributes `#[doc = ...]`, in order; the result is
    the value of the concat! expression. A literal loses one leading space. [None]: no such
    attribute. *)
Definition doc_line (e : expr) : string :=
  match e with
  | ELit (String c s) => if Ascii.eqb c " " then s else String c s
  | _ => expr_text e
  end.
Fixpoint get_doc (lines : list expr) : option string :=
  match lines with
  | [] => None
  | e :: rest => Some (match get_doc rest with
                       | Some d => doc_line e ++ String "010" d
                       | None => doc_line e
                       end)
  end.

(** attr/mod.rs:182-237 [CommonAttrs::add_mutators]: the statements, run on a schema. [None]: the
    evaluation of the constants fails ([get_title_and_description] panics, see Rustdoc.v). *)
Definition title_and_description (c : common) (doc : option string) : option (option string * option string) :=
  match doc with
  | None => Some (option_map expr_text (c_title c), option_map expr_text (c_description c))
  | Some d =>
      match get_title_and_description d with
      | Some (t, x) =>
          Some (Some (match c_title c with Some e => expr_text e | None => t end),
                Some (match c_description c with Some e => expr_text e | None => x end))
      | None => match c_title c, c_description c with
                | Some t, Some x => Some (Some (expr_text t), Some (expr_text x))
                | _, _ => None
                end
      end
  end.
Definition insert_opt (key : string) (v : option string) (s : json) : json :=
  match v with Some v => insert_metadata s key v | None => s end.
Definition values (es : list expr) : list json := flat_map (fun e => match expr_json e with Some j => [j] | None => [] end) es.
Definition common_mutators (c : common) (doc : option string) (deprecated : bool) (s : json) : option json :=
  match title_and_description c doc with
  | None => None
  | Some (t, d) =>
      let s := insert_opt "description" d (insert_opt "title" t s) in
      let s := if deprecated then insert "deprecated" (JBool true) s else s in
      let s := match c_examples c with [] => s | es => insert "examples" (JArr (values es)) s end in
      let s := fold_left (fun s kv => insert (fst kv) (snd kv) s) (c_extensions c) s in
      Some (fold_left (fun s e => match e with ECode _ _ f => f s | ELit _ => s end) (c_transforms c) s)
  end.

(** attr/mod.rs:167-180 [CommonAttrs::is_default] *)
Definition common_is_default (c : common) (doc : option string) (deprecated : bool) : bool :=
  match c, doc, deprecated with
  | Common None None [] [] [], None, false => true
  | _, _, _ => false
  end.
