(** Model of /repo/schemars_derive/src/attr/validation.rs: the validation attributes of a field or
    type, how they are collected, and what the generated code does with them to the schema. *)
From Coq Require Import String Ascii List ZArith Bool.
From Verif Require Import Json SchemaApi Private RegexSyntax.
Import ListNotations.
Open Scope string_scope.

(** parse_meta.rs [LengthOrRange]; the expressions are represented by the JSON numbers they
    evaluate to. *)
Record length_or_range := LR { lr_min : option json; lr_max : option json; lr_equal : option json }.

(** validation.rs:55-65 [ValidationAttrs]; [required] is used by the field code (see Derive). The
    format is represented by its [schema_str]; expressions by the strings they evaluate to. *)
Inductive vattrs := VAttrs {
  va_length : option length_or_range;
  va_range : option length_or_range;
  va_pattern : option string;
  va_regex : option string;
  va_contains : option string;
  va_required : bool;
  va_format : option string;
  va_inner : option vattrs
}.
(** Nothing but [required] *)
Definition no_checks (a : vattrs) : Prop := a = VAttrs None None None None None (va_required a) None None.
Definition no_vattrs : vattrs := VAttrs None None None None None false None None.
Definition only_required : vattrs := VAttrs None None None None None true None None.
(** At most one of the three attributes that set the pattern *)
Definition one_pattern (a : vattrs) : Prop := va_contains a = None \/ (va_regex a = None /\ va_pattern a = None).

Definition orelse {A} (a b : option A) : option A := match a with Some _ => a | None => b end.

(** validation.rs:116-135 [add_length_or_range]: the statements it emits, run on a schema *)
Definition add_length_or_range (v : length_or_range) (required_format suffix : string) (s : json) : json :=
  let s := match orelse (lr_min v) (lr_equal v) with
           | Some x => insert_validation s required_format ("min" ++ suffix) x | None => s end in
  match orelse (lr_max v) (lr_equal v) with
  | Some x => insert_validation s required_format ("max" ++ suffix) x | None => s end.

(** mod.rs:346-349 [must_contain] *)
Definition must_contain (s : json) (text : string) : json :=
  insert_validation s "string" "pattern" (JStr (escape text)).

(** validation.rs:68-114 [add_mutators]: the emitted statements, run on a schema *)
Fixpoint add_mutators (a : vattrs) (s : json) : json :=
  let s := match va_length a with
           | Some l => add_length_or_range l "array" "Items" (add_length_or_range l "string" "Length" s)
           | None => s end in
  let s := match va_range a with Some l => add_length_or_range l "number" "imum" s | None => s end in
  let s := match orelse (va_regex a) (va_pattern a) with
           | Some p => insert_validation s "string" "pattern" (JStr p) | None => s end in
  let s := match va_contains a with Some t => must_contain s t | None => s end in
  let s := match va_format a with Some f => insert "format" (JStr f) s | None => s end in
  match va_inner a with Some i => apply_inner_validation s (add_mutators i) | None => s end.

(** ** Collecting attributes (validation.rs:137-245)
    [M…] are the attribute items that concern validation; an item of the wrong form is an error and
    has no effect. The attribute it was written in decides which are recognised. *)
Inductive attr_type := Schemars | Validate | Garde.
Inductive vmeta :=
| MFormat (f : string) (path_only : bool)
| MLength (l : option length_or_range)
| MRange (l : option length_or_range)
| MRequired (path_only : bool)
| MPattern (p : option string)
| MRegex (p : option string)
| MContains (p : option string)
| MInner (items : option (list vmeta)).

(** Processing one item: the new attributes and whether an error is reported; [None]: the item is
    left for somebody else. *)
Definition some_any {A B C} (a : option A) (b : option B) (c : option C) : bool :=
  match a, b, c with None, None, None => false | _, _, _ => true end.
Definition is_set {A} (a : option A) : bool := match a with Some _ => true | None => false end.

(** attr/mod.rs:[duplicate_error], [mutual_exclusive_error] report only for schemars attributes. *)
Definition clash (t : attr_type) : bool := match t with Schemars => true | _ => false end.

Fixpoint process_meta (t : attr_type) (m : vmeta) (a : vattrs) {struct m} : option (vattrs * bool) :=
  match m with
  | MFormat f path_only =>
      match va_format a with
      | Some _ => Some (a, clash t)
      | None =>
          if match t with Validate => true | _ => path_only end
          then Some (VAttrs (va_length a) (va_range a) (va_pattern a) (va_regex a) (va_contains a)
                            (va_required a) (Some f) (va_inner a), false)
          else Some (a, true)
      end
  | MLength l =>
      if is_set (va_length a) then Some (a, clash t)
      else Some (VAttrs l (va_range a) (va_pattern a) (va_regex a) (va_contains a)
                        (va_required a) (va_format a) (va_inner a), negb (is_set l))
  | MRange l =>
      if is_set (va_range a) then Some (a, clash t)
      else Some (VAttrs (va_length a) l (va_pattern a) (va_regex a) (va_contains a)
                        (va_required a) (va_format a) (va_inner a), negb (is_set l))
  | MRequired path_only =>
      if va_required a then Some (a, clash t)
      else if path_only
      then Some (VAttrs (va_length a) (va_range a) (va_pattern a) (va_regex a) (va_contains a)
                        true (va_format a) (va_inner a), false)
      else Some (a, true)
  | MPattern p =>
      match t with
      | Validate => None
      | _ =>
          if some_any (va_pattern a) (va_regex a) (va_contains a) then Some (a, clash t)
          else Some (VAttrs (va_length a) (va_range a) p (va_regex a) (va_contains a)
                            (va_required a) (va_format a) (va_inner a), negb (is_set p))
      end
  | MRegex p =>
      match t with
      | Garde => None
      | _ =>
          if some_any (va_pattern a) (va_regex a) (va_contains a) then Some (a, clash t)
          else Some (VAttrs (va_length a) (va_range a) (va_pattern a) p (va_contains a)
                            (va_required a) (va_format a) (va_inner a), negb (is_set p))
      end
  | MContains p =>
      if some_any (va_pattern a) (va_regex a) (va_contains a) then Some (a, clash t)
      else Some (VAttrs (va_length a) (va_range a) (va_pattern a) (va_regex a) p
                        (va_required a) (va_format a) (va_inner a), negb (is_set p))
  | MInner items =>
      match t with
      | Validate => None
      | _ =>
          match items with
          | None => Some (a, true)
          | Some ms =>
              let start := match va_inner a with Some i => i | None => no_vattrs end in
              let '(i, e) :=
                (fix go (ms : list vmeta) (acc : vattrs * bool) : vattrs * bool :=
                   match ms with
                   | [] => acc
                   | m :: ms' =>
                       match process_meta t m (fst acc) with
                       | Some (a', e') => go ms' (a', snd acc || e')
                       | None => go ms' acc
                       end
                   end) ms (start, false) in
              Some (VAttrs (va_length a) (va_range a) (va_pattern a) (va_regex a) (va_contains a)
                           (va_required a) (va_format a) (Some i), e)
          end
      end
  end.

(** validation.rs:137-150 [populate], [process_attr]: the schemars items, then those of validate and
    garde; unrecognised items are skipped. *)
Fixpoint process_attr (t : attr_type) (ms : list vmeta) (acc : vattrs * bool) : vattrs * bool :=
  match ms with
  | [] => acc
  | m :: ms' =>
      match process_meta t m (fst acc) with
      | Some (a', e') => process_attr t ms' (a', snd acc || e')
      | None => process_attr t ms' acc
      end
  end.
Definition populate (schemars validate garde : list vmeta) (a : vattrs) : vattrs * bool :=
  process_attr Garde garde (process_attr Validate validate (process_attr Schemars schemars (a, false))).
