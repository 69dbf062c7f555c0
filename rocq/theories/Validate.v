(** SPECIFICATION (not a model of schemars code): JSON Schema validation.

    Follows the JSON Schema core/validation specifications for four dialects: 2020-12, 2019-09,
    draft-07, and the Schema Object of OpenAPI 3.0.3. Used to say what schemas MEAN, so that
    statements about schemars can be about accepted instances instead of about syntax.

    - References are interpreted by an arbitrary environment [e_ref]: theorems that quantify over
      the environment hold whatever the references mean. TransformDoc.v relates environments to
      the definitions of a document.
    - [pattern] and [format] are interpreted by arbitrary predicates [e_rx], [e_fmt].
    - A keyword with a malformed value (e.g. "allOf": 5) is ignored.
    - Not covered: $dynamicRef, $anchor, $id scoping, vocabularies, unevaluatedItems,
      minContains/maxContains, multipleOf, dependencies, content*. They are treated as unknown
      keywords (ignored). *)
From Coq Require Import String Ascii List ZArith NArith Bool Lia.
From Verif Require Import Json Utf8.
Import ListNotations.
Open Scope string_scope.

(** How arrays are described: prefixItems/items (2020-12), items (schema or array) and
    additionalItems (earlier drafts), or items as one schema (OpenAPI 3.0). *)
Inductive items_style : Type := Prefix | ArrayItems | SingleItems.

(** What distinguishes the dialects. *)
Record dialect := Dialect {
  d_ref_alone : bool;      (* siblings of "$ref" are ignored *)
  d_items : items_style;
  d_uneval : bool;         (* unevaluatedProperties is a keyword *)
  d_depend : bool;         (* dependentSchemas is a keyword *)
  d_const : bool;          (* const is a keyword *)
  d_nullable : bool;       (* nullable is a keyword *)
  d_extra : bool           (* patternProperties, propertyNames, contains, if/then/else are keywords *)
}.

Definition D2020 := Dialect false Prefix true true true false true.
Definition D2019 := Dialect false ArrayItems true true true false true.
Definition D07 := Dialect true ArrayItems false false true false true.
Definition OAS30 := Dialect true SingleItems false false false true false.

(** ** Numbers and equality of instances *)
Definition num_me (n : number) : Z * Z := match n with NInt z => (z, 0%Z) | NFlt m e => (m, e) end.

(** Comparison of the mathematical values m*2^e. *)
Definition num_cmp (a b : number) : comparison :=
  let '(m1, e1) := num_me a in
  let '(m2, e2) := num_me b in
  let e := Z.min e1 e2 in
  Z.compare (m1 * 2 ^ (e1 - e)) (m2 * 2 ^ (e2 - e)).

Definition num_leb (a b : number) : bool := match num_cmp a b with Gt => false | _ => true end.
Definition num_ltb (a b : number) : bool := match num_cmp a b with Lt => true | _ => false end.
Definition num_eqb (a b : number) : bool := match num_cmp a b with Eq => true | _ => false end.

(** A number without fractional part. *)
Definition num_integral (n : number) : bool :=
  match n with
  | NInt _ => true
  | NFlt m e => if Z.leb 0 e then true else Z.eqb (Z.modulo m (2 ^ (- e))) 0
  end.

(** Instance equality (numbers by value; objects are sorted maps). *)
Fixpoint jeq (a b : json) : bool :=
  match a, b with
  | JNull, JNull => true
  | JBool x, JBool y => Bool.eqb x y
  | JNum x, JNum y => num_eqb x y
  | JStr x, JStr y => String.eqb x y
  | JArr l, JArr l' =>
      (fix go (l l' : list json) : bool :=
         match l, l' with
         | [], [] => true
         | x :: t, y :: t' => jeq x y && go t t'
         | _, _ => false
         end) l l'
  | JObj m, JObj m' =>
      (fix go (m m' : list (string * json)) : bool :=
         match m, m' with
         | [], [] => true
         | (k, x) :: t, (k', y) :: t' => String.eqb k k' && jeq x y && go t t'
         | _, _ => false
         end) m m'
  | _, _ => false
  end.

(** ** Results *)
(** [ok]: the instance is accepted. [ev k]: property [k] of the instance was evaluated (only
    when accepted), for unevaluatedProperties. *)
Record result := Res { ok : bool; ev : string -> bool }.

Definition none_ev : string -> bool := fun _ => false.
Definition evs (r : result) (k : string) : bool := ok r && ev r k.

Record env := Env {
  e_ref : string -> json -> result;
  e_rx : string -> string -> bool;      (* pattern, string *)
  e_fmt : string -> json -> bool        (* format, instance *)
}.

(** The interpretations of a keyword's value as a schema, as a list of schemas, and as a map to
    schemas. *)
Record sub := Sub {
  s_den : json -> result;
  s_arr : option (list (json -> result));
  s_obj : option (list (string * (json -> result)))
}.

(** ** Keywords without subschemas *)
Definition type_ok (t : string) (v : json) : bool :=
  match v with
  | JNull => String.eqb t "null"
  | JBool _ => String.eqb t "boolean"
  | JNum n => String.eqb t "number" || (String.eqb t "integer" && num_integral n)
  | JStr _ => String.eqb t "string"
  | JArr _ => String.eqb t "array"
  | JObj _ => String.eqb t "object"
  end.

Definition type_member (x v : json) : bool := match x with JStr t => type_ok t v | _ => false end.

(** "type", with "nullable" in OpenAPI 3.0 (null is added to the allowed types, only if "type"
    is present). *)
Definition chk_type (d : dialect) (ty nullable : option json) (v : json) : bool :=
  match ty with
  | None => true
  | Some t =>
      let base := match t with
                  | JStr s => type_ok s v
                  | JArr l => existsb (fun x => type_member x v) l
                  | _ => true
                  end in
      base || (d_nullable d && match nullable with Some (JBool true) => is_null v | _ => false end)
  end.

Definition chk_enum (en : option json) (v : json) : bool :=
  match en with Some (JArr l) => existsb (jeq v) l | _ => true end.

(** "const" does not exist in OpenAPI 3.0. *)
Definition chk_const (d : dialect) (c : option json) (v : json) : bool :=
  match c with Some x => negb (d_const d) || jeq v x | None => true end.

(** Number of Unicode characters of a UTF-8 string. *)
Fixpoint char_count (s : string) : Z :=
  match s with
  | EmptyString => 0
  | String a s' => if cont a then char_count s' else (1 + char_count s')%Z
  end.

Fixpoint all_distinct (l : list json) : bool :=
  match l with [] => true | x :: t => negb (existsb (jeq x) t) && all_distinct t end.

Definition assertion (E : env) (k : string) (raw v : json) : bool :=
  if String.eqb k "minimum" then
    match raw, v with JNum b, JNum n => num_leb b n | _, _ => true end
  else if String.eqb k "maximum" then
    match raw, v with JNum b, JNum n => num_leb n b | _, _ => true end
  else if String.eqb k "exclusiveMinimum" then
    match raw, v with JNum b, JNum n => num_ltb b n | _, _ => true end
  else if String.eqb k "exclusiveMaximum" then
    match raw, v with JNum b, JNum n => num_ltb n b | _, _ => true end
  else if String.eqb k "minLength" then
    match raw, v with JNum b, JStr s => num_leb b (NInt (char_count s)) | _, _ => true end
  else if String.eqb k "maxLength" then
    match raw, v with JNum b, JStr s => num_leb (NInt (char_count s)) b | _, _ => true end
  else if String.eqb k "pattern" then
    match raw, v with JStr p, JStr s => e_rx E p s | _, _ => true end
  else if String.eqb k "format" then
    match raw with JStr f => e_fmt E f v | _ => true end
  else if String.eqb k "minItems" then
    match raw, v with JNum b, JArr l => num_leb b (NInt (Z.of_nat (List.length l))) | _, _ => true end
  else if String.eqb k "maxItems" then
    match raw, v with JNum b, JArr l => num_leb (NInt (Z.of_nat (List.length l))) b | _, _ => true end
  else if String.eqb k "uniqueItems" then
    match raw, v with JBool true, JArr l => all_distinct l | _, _ => true end
  else if String.eqb k "minProperties" then
    match raw, v with JNum b, JObj m => num_leb b (NInt (Z.of_nat (List.length m))) | _, _ => true end
  else if String.eqb k "maxProperties" then
    match raw, v with JNum b, JObj m => num_leb (NInt (Z.of_nat (List.length m))) b | _, _ => true end
  else if String.eqb k "required" then
    match raw, v with
    | JArr l, JObj m => forallb (fun x => match x with JStr n => mhas n m | _ => true end) l
    | _, _ => true
    end
  else true.

Definition assertion_names : list string :=
  ["minimum"; "maximum"; "exclusiveMinimum"; "exclusiveMaximum"; "minLength"; "maxLength";
   "pattern"; "format"; "minItems"; "maxItems"; "uniqueItems"; "minProperties"; "maxProperties";
   "required"].

Definition chk_assertions (E : env) (R : string -> option json) (v : json) : bool :=
  forallb (fun k => match R k with Some raw => assertion E k raw v | None => true end)
          assertion_names.

(** ** Applicators *)
Definition arr_of (o : option sub) : option (list (json -> result)) :=
  match o with Some s => s_arr s | None => None end.
Definition obj_of (o : option sub) : option (list (string * (json -> result))) :=
  match o with Some s => s_obj s | None => None end.

Definition chk_all (o : option sub) (v : json) : bool :=
  match arr_of o with Some l => forallb (fun f => ok (f v)) l | None => true end.
Definition chk_any (o : option sub) (v : json) : bool :=
  match arr_of o with Some l => existsb (fun f => ok (f v)) l | None => true end.
Definition count_ok (l : list (json -> result)) (v : json) : nat :=
  List.length (filter (fun f => ok (f v)) l).
Definition chk_one (o : option sub) (v : json) : bool :=
  match arr_of o with Some l => Nat.eqb (count_ok l v) 1 | None => true end.
Definition chk_not (o : option sub) (v : json) : bool :=
  match o with Some s => negb (ok (s_den s v)) | None => true end.
Definition chk_opt (o : option sub) (v : json) : bool :=
  match o with Some s => ok (s_den s v) | None => true end.
Definition chk_if (i t e : option sub) (v : json) : bool :=
  match i with
  | Some s => if ok (s_den s v) then chk_opt t v else chk_opt e v
  | None => true
  end.

(** Evaluated properties contributed by in-place applicators. *)
Definition ev_list (o : option sub) (v : json) (k : string) : bool :=
  match arr_of o with Some l => existsb (fun f => evs (f v) k) l | None => false end.
Definition ev_opt (o : option sub) (v : json) (k : string) : bool :=
  match o with Some s => evs (s_den s v) k | None => false end.
Definition ev_if (i t e : option sub) (v : json) (k : string) : bool :=
  match i with
  | Some s => if ok (s_den s v) then evs (s_den s v) k || ev_opt t v k else ev_opt e v k
  | None => false
  end.

(** Elements checked positionally against [fs]; returns the remaining elements. *)
Fixpoint zip_ok (fs : list (json -> result)) (l : list json) : bool :=
  match fs, l with
  | f :: fs', x :: l' => ok (f x) && zip_ok fs' l'
  | _, _ => true
  end.
Definition all_ok (s : sub) (l : list json) : bool := forallb (fun x => ok (s_den s x)) l.

(** prefixItems/items (2020-12); items/additionalItems (earlier drafts); items only (OpenAPI). *)
Definition chk_items (d : dialect) (prefix items additional : option sub) (v : json) : bool :=
  match v with
  | JArr l =>
      match d_items d with
      | Prefix =>
          let fs := match arr_of prefix with Some fs => fs | None => [] end in
          zip_ok fs l
          && match items with Some s => all_ok s (skipn (List.length fs) l) | None => true end
      | SingleItems => match items with Some s => all_ok s l | None => true end
      | ArrayItems =>
          match items with
          | Some s =>
              match s_arr s with
              | Some fs =>
                  zip_ok fs l
                  && match additional with
                     | Some a => all_ok a (skipn (List.length fs) l) | None => true end
              | None => all_ok s l
              end
          | None => true
          end
      end
  | _ => true
  end.

(** A keyword's interpretation, if it is a keyword. *)
Definition when (b : bool) (o : option sub) : option sub := if b then o else None.

Definition chk_contains (o : option sub) (v : json) : bool :=
  match v, o with
  | JArr l, Some s => existsb (fun x => ok (s_den s x)) l
  | _, _ => true
  end.

(** Is property [k] named by "properties" / matched by "patternProperties"? *)
Definition in_props (props : option sub) (k : string) : bool :=
  match obj_of props with Some fs => mhas k fs | None => false end.
Definition in_patterns (E : env) (pats : option sub) (k : string) : bool :=
  match obj_of pats with Some fs => existsb (fun pf => e_rx E (fst pf) k) fs | None => false end.

Definition chk_props (props : option sub) (v : json) : bool :=
  match v, obj_of props with
  | JObj m, Some fs =>
      forallb (fun kx => match mget (fst kx) fs with
                         | Some f => ok (f (snd kx)) | None => true end) m
  | _, _ => true
  end.
Definition chk_patterns (E : env) (pats : option sub) (v : json) : bool :=
  match v, obj_of pats with
  | JObj m, Some fs =>
      forallb (fun kx => forallb (fun pf => negb (e_rx E (fst pf) (fst kx)) || ok (snd pf (snd kx))) fs) m
  | _, _ => true
  end.
Definition chk_additional (E : env) (props pats additional : option sub) (v : json) : bool :=
  match v, additional with
  | JObj m, Some s =>
      forallb (fun kx => in_props props (fst kx) || in_patterns E pats (fst kx)
                         || ok (s_den s (snd kx))) m
  | _, _ => true
  end.
Definition chk_names (o : option sub) (v : json) : bool :=
  match v, o with
  | JObj m, Some s => forallb (fun kx => ok (s_den s (JStr (fst kx)))) m
  | _, _ => true
  end.
Definition chk_dependent (o : option sub) (v : json) : bool :=
  match v, obj_of o with
  | JObj m, Some fs => forallb (fun kf => negb (mhas (fst kf) m) || ok (snd kf v)) fs
  | _, _ => true
  end.
Definition ev_dependent (o : option sub) (v : json) (k : string) : bool :=
  match v, obj_of o with
  | JObj m, Some fs => existsb (fun kf => mhas (fst kf) m && evs (snd kf v) k) fs
  | _, _ => false
  end.

Definition chk_ref (E : env) (r : option json) (v : json) : bool :=
  match r with Some (JStr s) => ok (e_ref E s v) | _ => true end.
Definition ev_ref (E : env) (r : option json) (v : json) (k : string) : bool :=
  match r with Some (JStr s) => evs (e_ref E s v) k | _ => false end.

(** Everything except unevaluatedProperties. *)
Definition chk_main (d : dialect) (E : env) (R : string -> option json) (S : string -> option sub)
    (v : json) : bool :=
  chk_ref E (R "$ref") v
  && chk_type d (R "type") (R "nullable") v
  && chk_enum (R "enum") v
  && chk_const d (R "const") v
  && chk_assertions E R v
  && chk_all (S "allOf") v
  && chk_any (S "anyOf") v
  && chk_one (S "oneOf") v
  && chk_not (S "not") v
  && chk_if (when (d_extra d) (S "if")) (S "then") (S "else") v
  && chk_items d (S "prefixItems") (S "items") (S "additionalItems") v
  && chk_contains (when (d_extra d) (S "contains")) v
  && chk_props (S "properties") v
  && chk_patterns E (when (d_extra d) (S "patternProperties")) v
  && chk_additional E (S "properties") (when (d_extra d) (S "patternProperties")) (S "additionalProperties") v
  && chk_names (when (d_extra d) (S "propertyNames")) v
  && chk_dependent (when (d_depend d) (S "dependentSchemas")) v.

Definition is_some {A} (o : option A) : bool := match o with Some _ => true | None => false end.

(** Properties evaluated by everything except unevaluatedProperties. *)
Definition ev_main (d : dialect) (E : env) (R : string -> option json) (S : string -> option sub)
    (v : json) (k : string) : bool :=
  in_props (S "properties") k
  || in_patterns E (when (d_extra d) (S "patternProperties")) k
  || is_some (S "additionalProperties")
  || ev_ref E (R "$ref") v k
  || ev_list (S "allOf") v k
  || ev_list (S "anyOf") v k
  || ev_list (S "oneOf") v k
  || ev_if (when (d_extra d) (S "if")) (S "then") (S "else") v k
  || ev_dependent (when (d_depend d) (S "dependentSchemas")) v k.

Definition chk_uneval (o : option sub) (evf : string -> bool) (v : json) : bool :=
  match v, o with
  | JObj m, Some s => forallb (fun kx => evf (fst kx) || ok (s_den s (snd kx))) m
  | _, _ => true
  end.

Definition eval_obj (d : dialect) (E : env) (R : string -> option json) (S : string -> option sub)
    (v : json) : result :=
  if d_ref_alone d && match R "$ref" with Some (JStr _) => true | _ => false end then
    let o := chk_ref E (R "$ref") v in
    Res o (fun k => o && ev_ref E (R "$ref") v k)
  else
    let u := when (d_uneval d) (S "unevaluatedProperties") in
    let o := chk_main d E R S v && chk_uneval u (ev_main d E R S v) v in
    Res o (fun k => o && (is_some u || ev_main d E R S v k)).

(** The meaning of a schema. *)
Fixpoint eval (d : dialect) (E : env) (s : json) {struct s} : json -> result :=
  match s with
  | JBool b => fun _ => Res b none_ev
  | JObj m =>
      let subs :=
        map (fun kv =>
               (fst kv,
                Sub (eval d E (snd kv))
                    match snd kv with JArr l => Some (map (eval d E) l) | _ => None end
                    match snd kv with
                    | JObj m' => Some (map (fun kv' => (fst kv', eval d E (snd kv'))) m')
                    | _ => None end)) m in
      eval_obj d E (fun k => mget k m) (fun k => mget k subs)
  | _ => fun _ => Res true none_ev
  end.

(** The instance [v] is accepted by the schema [s]. *)
Definition valid (d : dialect) (E : env) (s v : json) : bool := ok (eval d E s v).
