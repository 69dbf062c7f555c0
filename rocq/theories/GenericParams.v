(** Model of /repo/schemars_derive/src/bound.rs: which type params of a generic type are "relevant"
    (part of its schema id, lib.rs:117-145), and of the instances of a generic declaration. *)
From Coq Require Import String List Bool Arith.
From Verif Require Import Json Types.
Import ListNotations.
Open Scope string_scope.
Open Scope list_scope.

(** syn::Type. Simplified: a path has its idents, its type arguments (those of all segments, with the
    types of associated type bindings and parenthesized arguments, in order) and a [text] for what the
    visitor does not look at (lifetimes, const arguments, which segment an argument belongs to). The
    compound types are arrays, slices, tuples, pointers, references, bare functions, parenthesized and
    grouped types, and trait objects (their bounds being paths). [SMacro] is a type macro, [SOther]
    a type without parts (never, inferred). *)
Inductive sty :=
| SPath (qself : list sty) (leading_colon : bool) (idents : list string) (text : string) (args : list sty)
| SCompound (text : string) (elems : list sty)
| SMacro (tokens : string)
| SOther (text : string).

Definition smem (p : string) (l : list string) : bool := existsb (String.eqb p) l.

(** bound.rs:136-160 [visit_path], the part before the arguments are visited *)
Definition is_phantom (idents : list string) : bool := String.eqb (last idents "") "PhantomData".
Definition first_param (all : list string) (leading_colon : bool) (idents : list string) : option string :=
  if leading_colon then None
  else match idents with i :: _ => if smem i all then Some i else None | [] => None end.

(** bound.rs:162-203 [visit_type] (and visit_path_arguments etc.): the params it inserts *)
Fixpoint visit_type (all : list string) (t : sty) : list string :=
  match t with
  | SPath qself lead idents _ args =>
      flat_map (visit_type all) qself
      ++ (if is_phantom idents then []
          else (match first_param all lead idents with Some p => [p] | None => [] end)
               ++ flat_map (visit_type all) args)
  | SCompound _ elems => flat_map (visit_type all) elems
  | SMacro _ | SOther _ => []
  end.

(** Where the type of a field's schema comes from: its type, a [with] attribute, or a [schema_with]
    function. Of functions we only consider those that return the schema of some type, which may
    depend on the params. *)
Inductive source := OwnType (t : sty) | WithType (t : sty) | WithFunction (f : (string -> rty) -> rty).
Definition visit_field (all : list string) (s : source) : list string :=
  match s with OwnType t | WithType t => visit_type all t | WithFunction _ => [] end.

(** A generic declaration: fields with their sources. The [f_ty] of the attributes given in [gf_attrs]
    is not used, and neither is the [v_style] of [gv_attrs]. *)
Record gfield (X : Type) := GField { gf_attrs : field X; gf_source : source }.
Arguments GField {X}. Arguments gf_attrs {X}. Arguments gf_source {X}.
Inductive gstyle (X : Type) := GUnit | GNewtype (f : gfield X) | GTuple (fs : list (gfield X)) | GStruct (fs : list (gfield X)).
Arguments GUnit {X}. Arguments GNewtype {X}. Arguments GTuple {X}. Arguments GStruct {X}.
Record gvariant (X : Type) := GVariant { gv_attrs : variant X; gv_with : option source; gv_style : gstyle X }.
Arguments GVariant {X}. Arguments gv_attrs {X}. Arguments gv_with {X}. Arguments gv_style {X}.
Inductive gdata (X : Type) :=
| GDStruct (default : bool) (s : gstyle X)
| GDEnum (t : tagging) (vs : list (gvariant X))
| GDConv (from into : option sty) (own : gdata X).
Arguments GDStruct {X}. Arguments GDEnum {X}. Arguments GDConv {X}.
Record gdecl (X : Type) := GDecl { gd_deny : bool; gd_data : gdata X; gd_meta : list (string * json) }.
Arguments GDecl {X}. Arguments gd_deny {X}. Arguments gd_data {X}. Arguments gd_meta {X}.

Section Relevant.
Context {X : Type}.

Definition style_fields (s : gstyle X) : list (gfield X) :=
  match s with GUnit => [] | GNewtype f => [f] | GTuple fs | GStruct fs => fs end.

(** bound.rs:99-111 [needs_jsonschema_bound] *)
Definition field_needs_bound (f : gfield X) : bool := negb (f_skip_de (gf_attrs f) && f_skip_ser (gf_attrs f)).
Definition variant_needs_bound (v : gvariant X) : bool := negb (v_skip_de (gv_attrs v) && v_skip_ser (gv_attrs v)).

(** bound.rs:32-56: the types of from and into attributes are not visited *)
Fixpoint visited_fields (d : gdata X) : list (gfield X) :=
  match d with
  | GDStruct _ s => filter field_needs_bound (style_fields s)
  | GDEnum _ vs =>
      flat_map (fun v => if variant_needs_bound v then filter field_needs_bound (style_fields (gv_style v)) else []) vs
  | GDConv _ _ own => visited_fields own
  end.
Definition visit_data (all : list string) (d : gdata X) : list string :=
  flat_map (fun f => visit_field all (gf_source f)) (visited_fields d).

(** bound.rs:11-58 [find_trait_bounds]: [all] are the type params, [rename] those of the rename
    attribute (C56); the result is [relevant_type_params]. (The trait bounds are not modelled.) *)
Definition relevant_type_params (all rename : list string) (g : gdecl X) : list string :=
  if (List.length rename <? List.length all)%nat then rename ++ visit_data all (gd_data g) else rename.

(** The instance of a generic declaration, the type params standing for the types that [inst] gives.
    What a path, a compound type or a macro means is given by [path_meaning] and so on: arbitrary
    functions of what the type's parts mean. [macro_meaning] gets the params as well: the tokens of a
    type macro may mention them. *)
Variable path_meaning : list rty -> option rty -> list string -> string -> list rty -> rty.
Variable compound_meaning : string -> list rty -> rty.
Variable macro_meaning : string -> (string -> rty) -> rty.
Variable other_meaning : string -> rty.

Fixpoint resolve (all : list string) (inst : string -> rty) (t : sty) : rty :=
  match t with
  | SPath qself lead idents text args =>
      match first_param all lead idents, idents, qself with
      | Some p, [_], [] => inst p
      | p, _, _ => path_meaning (map (resolve all inst) qself) (option_map inst p) idents text (map (resolve all inst) args)
      end
  | SCompound text elems => compound_meaning text (map (resolve all inst) elems)
  | SMacro tokens => macro_meaning tokens inst
  | SOther text => other_meaning text
  end.

Definition set_ty (f : field X) (t : rty) : field X :=
  Field (f_ser f) (f_de f) t (f_skip_ser f) (f_skip_de f) (f_skip_if f) (f_default f) (f_default_value f)
    (f_flatten f) (f_valid f) (f_meta f).
Definition source_type (all : list string) (inst : string -> rty) (s : source) : rty :=
  match s with OwnType t | WithType t => resolve all inst t | WithFunction f => f inst end.
(** schema_exprs.rs:201-213 [type_for_field_schema] *)
Definition inst_field (all : list string) (inst : string -> rty) (f : gfield X) : field X :=
  set_ty (gf_attrs f) (source_type all inst (gf_source f)).
Definition inst_style (all : list string) (inst : string -> rty) (s : gstyle X) : style X :=
  match s with
  | GUnit => Unit
  | GNewtype f => Newtype (inst_field all inst f)
  | GTuple fs => Tuple (map (inst_field all inst) fs)
  | GStruct fs => Struct (map (inst_field all inst) fs)
  end.
(** A variant with a [with] attribute has the schema of that type, like a newtype variant with a field
    without attributes: schema_exprs.rs:563-570, 322, 405. (In an internally tagged enum the code
    differs, schema_exprs.rs:606-615; not modelled.) *)
Definition bare_field (t : rty) : field X := Field "" "" t false false None false None false ValidationAttrs.no_vattrs [].
Definition inst_variant (all : list string) (inst : string -> rty) (v : gvariant X) : variant X :=
  let a := gv_attrs v in
  Variant (v_ser a) (v_de a) (v_skip_ser a) (v_skip_de a) (v_untagged a)
    (match gv_with v with
     | Some s => Newtype (bare_field (source_type all inst s))
     | None => inst_style all inst (gv_style v)
     end) (v_meta a).
Fixpoint inst_data (all : list string) (inst : string -> rty) (d : gdata X) : data X :=
  match d with
  | GDStruct def s => DStruct def (inst_style all inst s)
  | GDEnum t vs => DEnum t (map (inst_variant all inst) vs)
  | GDConv from into own => DConv (option_map (resolve all inst) from) (option_map (resolve all inst) into) (inst_data all inst own)
  end.
Definition inst_decl (all : list string) (inst : string -> rty) (g : gdecl X) : decl X :=
  Decl (gd_deny g) (inst_data all inst (gd_data g)) (gd_meta g).
End Relevant.
