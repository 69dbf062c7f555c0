(** Property theorems C36: flattened fields. *)
From Coq Require Import String Ascii List ZArith NArith Bool Lia.
From Verif Require Import Json JsonFacts SchemaApi Validate ValidateFacts ValidateKw Private PrivateProps
  PrivateFlatten PrivateForFlatten PrivateFlattenEnum Properties_Private.
Import ListNotations.
Open Scope string_scope.

(** C36. [flatten s1 s2] merges the schema of a flattened field into that of the struct. If the two
    have no contradictory keywords ([mergeable]) the result accepts exactly what both accept. *)
Theorem C36_both_partial : forall E m1 m2 v, NoDup (map fst m2) -> mergeable m1 m2 ->
  valid D2020 E (flatten (JObj m1) (JObj m2)) v = valid D2020 E (JObj m1) v && valid D2020 E (JObj m2) v.
Proof. exact flatten_conj. Qed.
Print Assumptions C36_both_partial.

(** For schemas that mention different properties: the union of two objects is accepted if and only
    if each part is accepted by its schema. *)
Theorem C36_union_partial : forall E K1 K2 m1 m2 o1 o2,
  NoDup (map fst m2) -> mergeable m1 m2 ->
  mentions K1 (JObj m1) -> mentions K2 (JObj m2) ->
  sorted_keys (map fst o1) = true -> sorted_keys (map fst o2) = true ->
  (forall k, In k K2 -> mget k o1 = None) -> (forall k, In k K1 -> mget k o2 = None) ->
  valid D2020 E (flatten (JObj m1) (JObj m2)) (JObj (mappend o1 o2))
  = valid D2020 E (JObj m1) (JObj o1) && valid D2020 E (JObj m2) (JObj o2).
Proof. exact flatten_merged. Qed.
Print Assumptions C36_union_partial.

(** Struct-like schemas with additionalProperties (a flattened map, deny_unknown_fields): *)
Theorem C36_structs : forall E m1 m2 o,
  object_shape m1 -> object_shape m2 -> NoDup (map fst m2) ->
  sorted_keys (map fst (props_of m1)) = true -> sorted_keys (map fst (props_of m2)) = true ->
  (forall k, mget k (props_of m1) <> None -> mget k (props_of m2) <> None -> False) ->
  valid D2020 E (flatten (JObj m1) (JObj m2)) (JObj o)
  = valid D2020 E (JObj (without_additional m1)) (JObj o)
    && valid D2020 E (JObj (without_additional m2)) (JObj o) && others_ok E m1 m2 o.
Proof. exact flatten_shape. Qed.
Print Assumptions C36_structs.

Theorem C36_map : forall E m1 a o,
  object_shape m1 -> mget "additionalProperties" m1 = None ->
  sorted_keys (map fst (props_of m1)) = true ->
  valid D2020 E (flatten (JObj m1) (JObj [("additionalProperties", a); ("type", JStr "object")])) (JObj o)
  = valid D2020 E (JObj m1) (JObj o)
    && forallb (fun kx => mhas (fst kx) (props_of m1) || valid D2020 E a (snd kx)) o.
Proof. exact flatten_map. Qed.
Print Assumptions C36_map.

(** Before the merge, a struct's schema is opened (no additionalProperties: false, and nothing
    required if the field is optional): exactly the declared properties are still checked. *)
Theorem C36_prepared_struct : forall E m opt o,
  object_shape m -> mget "then" m = None -> mget "else" m = None ->
  valid D2020 E (for_flatten (JObj m) opt) (JObj o)
  = props_ok E (props_of m) (JObj o) && (opt || required_ok (required_of m) (JObj o)) && open_additional E m o.
Proof. exact for_flatten_struct. Qed.
Print Assumptions C36_prepared_struct.

(** A unit variant is written {"Variant": null} when flattened. *)
Theorem C36_prepared_unit_enum : forall E vs x, NoDup vs ->
  valid D2020 E (for_flatten (unit_enum vs) false) (JObj [(x, JNull)]) = true <-> In x vs.
Proof. exact for_flatten_units. Qed.
Print Assumptions C36_prepared_unit_enum.

(** A flattened externally tagged enum with unit variants [units] and other variants [news] (name and
    schema of the content). [held] lists the variants an object holds the content of. The object is
    accepted if and only if the struct's own properties are right, exactly one variant is held (any
    number if the field is an [Option]), and every further property meets the struct's
    additionalProperties (deny_unknown_fields, or a flattened map) - where the name of the held
    variant is no further property. *)
Theorem C36_flattened_enum : forall E m1 units news opt o,
  object_shape m1 -> NoDup (map fst o) ->
  valid D2020 E (flatten (JObj m1) (for_flatten (enum_schema units news) opt)) (JObj o)
  = valid D2020 E (JObj (without_additional m1)) (JObj o)
    && (opt || Nat.eqb (List.length (held E (variants_of units news) o)) 1)
    && match mget "additionalProperties" m1 with
       | Some a => forallb (fun kx => mhas (fst kx) (props_of m1)
                                      || (match held E (variants_of units news) o with [n] => String.eqb (fst kx) n | _ => false end)
                                      || valid D2020 E a (snd kx)) o
       | None => true
       end.
Proof. exact flatten_enum. Qed.
Print Assumptions C36_flattened_enum.

(** In particular, for distinct variant names: the properties of a struct together with one variant. *)
Theorem C36_flattened_enum_value : forall E m1 units news opt o n s x,
  object_shape m1 -> sorted_keys (map fst o) = true ->
  NoDup (map fst (variants_of units news)) -> In (n, s) (variants_of units news) ->
  (forall k, In k (map fst (variants_of units news)) -> mget k o = None /\ mhas k (props_of m1) = false) ->
  (mget "additionalProperties" m1 = None \/ mget "additionalProperties" m1 = Some (JBool false)) ->
  valid D2020 E (JObj m1) (JObj o) = true ->
  valid D2020 E (flatten (JObj m1) (for_flatten (enum_schema units news) opt)) (JObj (mset n x o))
  = opt && negb (mhas "additionalProperties" m1) || valid D2020 E s x.
Proof. exact flatten_enum_value. Qed.
Print Assumptions C36_flattened_enum_value.

Definition C36_s : map_t :=
  [("properties", JObj [("a", JObj [("type", JStr "string")])]); ("required", JArr [JStr "a"]); ("type", JStr "object")].
(** #[serde(deny_unknown_fields)] struct T { a: String, #[serde(flatten)] e: E }, enum E { U, N(i32) } *)
Example C36_flattened_enum_example :
  let m1 := mset "additionalProperties" (JBool false) C36_s in
  let s := flatten (JObj m1) (for_flatten (enum_schema ["U"] [("N", JObj [("type", JStr "integer")])]) false) in
  object_shape m1
  /\ s = JObj [("oneOf", JArr [opened ("N", JObj [("type", JStr "integer")]); opened ("U", JObj [("type", JStr "null")])]);
               ("properties", JObj [("a", JObj [("type", JStr "string")])]); ("required", JArr [JStr "a"]); ("type", JStr "object");
               ("unevaluatedProperties", JBool false)]
  /\ valid D2020 no_env s (JObj [("N", JNum (NInt 1)); ("a", JStr "x")]) = true
  /\ valid D2020 no_env s (JObj [("U", JNull); ("a", JStr "x")]) = true
  /\ valid D2020 no_env s (JObj [("a", JStr "x")]) = false
  /\ valid D2020 no_env s (JObj [("N", JNum (NInt 1)); ("U", JNull); ("a", JStr "x")]) = false
  /\ valid D2020 no_env s (JObj [("U", JNull); ("a", JStr "x"); ("b", JNull)]) = false.
Proof.
  cbv zeta. split; [|repeat split; vm_compute; reflexivity].
  split; [|repeat split; right; try eexists; reflexivity]. intros k Hk HN. rewrite mget_mset in HN.
  destruct (in_dec string_dec k object_keywords) as [HI|HI]; [exact HI|]. elim HN. unfold C36_s.
  cbn [In object_keywords] in HI. destruct (String.eqb_spec k "additionalProperties"); [subst; tauto|]. cbn [mget].
  destruct (String.eqb_spec k "properties"); [subst; tauto|]. destruct (String.eqb_spec k "required"); [subst; tauto|].
  destruct (String.eqb_spec k "type"); [subst; tauto|reflexivity].
Qed.

(** A struct with a flattened enum *)
Definition C36_a : map_t :=
  [("properties", JObj [("a", JObj [("type", JStr "string")])]); ("required", JArr [JStr "a"]); ("type", JStr "object")].
Definition variant_ (k : string) : json :=
  JObj [("properties", JObj [(k, JObj [("type", JStr "integer")])]); ("required", JArr [JStr k]); ("type", JStr "object")].
Definition C36_b : map_t := [("oneOf", JArr [variant_ "x"; variant_ "y"])].

Lemma C36_variant_mentions k n : In k ["x"; "y"] -> mentions_n (S n) ["x"; "y"] (variant_ k).
Proof.
  intros HK c x Hx _. cbn [mget variant_] in Hx.
  destruct (String.eqb_spec c "properties") as [->|].
  { injection Hx as <-. right. left. split; [reflexivity|]. eexists. split; [reflexivity|].
    intros c. cbn [mget]. destruct (String.eqb_spec c k) as [->|]; [auto|intros H; now elim H]. }
  destruct (String.eqb_spec c "required") as [->|].
  { injection Hx as <-. right. right. left. split; [reflexivity|]. eexists. split; [reflexivity|].
    intros c [<-|[]]. eauto. }
  destruct (String.eqb_spec c "type") as [->|]; [now left|discriminate].
Qed.

Example C36_example :
  mergeable C36_a C36_b /\ mentions ["a"] (JObj C36_a) /\ mentions ["x"; "y"] (JObj C36_b)
  /\ valid D2020 no_env (flatten (JObj C36_a) (JObj C36_b))
       (JObj (mappend [("a", JStr "s")] [("y", JNum (NInt 1))])) = true
  /\ valid D2020 no_env (flatten (JObj C36_a) (JObj C36_b)) (JObj [("a", JStr "s")]) = false.
Proof.
  split; [|split; [|split; [|split; vm_compute; reflexivity]]].
  - split; try (left; reflexivity).
    + intros k Hk. cbn in Hk. repeat (destruct Hk as [<-|Hk]; [reflexivity|]). destruct Hk.
    + intros k Hk. cbn in Hk. repeat (destruct Hk as [<-|Hk]; [reflexivity|]). destruct Hk.
    + intros k x1 x2 H1 H2. cbn [mget C36_b] in H2. destruct (String.eqb_spec k "oneOf") as [->|]; [|discriminate].
      discriminate H1.
  - exists 1. intros c x Hx _. cbn [mget C36_a] in Hx.
    destruct (String.eqb_spec c "properties") as [->|].
    { injection Hx as <-. right. left. split; [reflexivity|]. eexists. split; [reflexivity|].
      intros c. cbn [mget]. destruct (String.eqb_spec c "a") as [->|]; [cbn; auto|intros H; now elim H]. }
    destruct (String.eqb_spec c "required") as [->|].
    { injection Hx as <-. right. right. left. split; [reflexivity|]. eexists. split; [reflexivity|].
      intros c [<-|[]]. exists "a". cbn. auto. }
    destruct (String.eqb_spec c "type") as [->|]; [now left|discriminate].
  - exists 2. intros c x Hx _. cbn [mget C36_b] in Hx. destruct (String.eqb_spec c "oneOf") as [->|]; [|discriminate].
    injection Hx as <-. right. right. right. split; [cbn; auto|]. eexists. split; [reflexivity|].
    intros c [<-|[<-|[]]]; apply C36_variant_mentions; cbn; auto.
Qed.
Example C36_example_map :
  valid D2020 no_env (flatten (JObj C36_a) (JObj [("additionalProperties", JObj [("type", JStr "boolean")]); ("type", JStr "object")]))
    (JObj [("a", JStr "s"); ("other", JBool true)]) = true
  /\ valid D2020 no_env (flatten (JObj C36_a) (JObj [("additionalProperties", JObj [("type", JStr "boolean")]); ("type", JStr "object")]))
    (JObj [("a", JStr "s"); ("other", JStr "t")]) = false.
Proof. split; vm_compute; reflexivity. Qed.
Example C36_example_struct :
  valid D2020 no_env (for_flatten (JObj (mset "additionalProperties" (JBool false) C36_a)) true) (JObj [("b", JNull)]) = true
  /\ valid D2020 no_env (for_flatten (JObj (mset "additionalProperties" (JBool false) C36_a)) false) (JObj [("b", JNull)]) = false.
Proof. split; vm_compute; reflexivity. Qed.

(** Finding: of two flattened maps the second one's value schema is dropped, so the union of two
    accepted objects is rejected. *)
Theorem C36_two_maps_refuted : exists m1 m2 o1 o2, forall E,
  valid D2020 E (JObj m1) (JObj o1) = true /\ valid D2020 E (JObj m2) (JObj o2) = true
  /\ (forall k, mget k o1 <> None -> mget k o2 = None)
  /\ valid D2020 E (flatten (JObj m1) (JObj m2)) (JObj (mappend o1 o2)) = false.
Proof.
  exists [("additionalProperties", JObj [("type", JStr "integer")]); ("type", JStr "object")],
    [("additionalProperties", JObj [("type", JStr "string")]); ("type", JStr "object")],
    [("a", JNum (NInt 1))], [("b", JStr "x")].
  intros E. split; [reflexivity|]. split; [reflexivity|]. split; [|reflexivity].
  intros k. cbn [mget]. destruct (String.eqb_spec k "a") as [->|]; [reflexivity|intros H; now elim H].
Qed.
Print Assumptions C36_two_maps_refuted.
