(** Property theorems C35, C37, C38, C50: the helpers the derive macro relies on. *)
From Coq Require Import String Ascii List ZArith NArith Bool Lia.
From Verif Require Import Json JsonFacts SchemaApi Validate ValidateFacts ValidateKw Private PrivateNull
  PrivateProps PrivateTag RegexSyntax ValidationAttrs ValidationProofs ValidationCollect.
Import ListNotations.
Open Scope string_scope.

Definition no_env : env := {| e_ref := fun _ _ => {| ok := true; ev := fun _ => false |};
                              e_rx := fun _ _ => true; e_fmt := fun _ _ => true |}.

(** C35. [allow_null] is the body of Option<T>'s schema. Partial: a schema with "const": null, with
    both "const" and "enum", or with another keyword that rejects null (only "not" and "format" can,
    see [C35_other_keywords]) is excluded: the claim is false of those, see below. *)
Theorem C35_option_exact_partial : forall E s v,
  is_schema s = true ->
  (forall a, s = JObj [("anyOf", JArr a)] -> existsb is_null_schema a = true ->
             valid D2020 E s JNull = true) ->
  (forall m, s = JObj m -> contains_immediate_subschema m = false ->
     mget "const" m <> Some JNull /\ (mget "const" m <> None -> mget "enum" m = None)
     /\ valid D2020 E (JObj (other_keywords m)) JNull = true) ->
  valid D2020 E (allow_null s) v = is_null v || valid D2020 E s v.
Proof. exact allow_null_sem. Qed.
Print Assumptions C35_option_exact_partial.

(** The last hypothesis holds whenever there is no "not" and formats accept null. *)
Theorem C35_other_keywords : forall E m,
  (forall f, e_fmt E f JNull = true) -> contains_immediate_subschema m = false ->
  mget "not" m = None ->
  valid D2020 E (JObj (other_keywords m)) JNull = true.
Proof. exact other_accepts_null. Qed.
Print Assumptions C35_other_keywords.

(** Schemas with a reference or a composition (every nested generated type) need no condition,
    unless the schema is a lone anyOf that already lists null. *)
Theorem C35_option_of_reference : forall E m v,
  contains_immediate_subschema m = true ->
  (forall a, m = [("anyOf", JArr a)] -> existsb is_null_schema a = false) ->
  valid D2020 E (allow_null (JObj m)) v = is_null v || valid D2020 E (JObj m) v.
Proof.
  intros E m v HI HA. apply allow_null_sem; [reflexivity| |].
  - intros a Ha Hn. injection Ha as ->. rewrite (HA a eq_refl) in Hn. discriminate.
  - intros m' Hm HC. injection Hm as <-. congruence.
Qed.
Print Assumptions C35_option_of_reference.

Example C35_example : forall v,
  valid D2020 no_env (allow_null (JObj [("enum", JArr [JStr "A"; JStr "B"]); ("type", JStr "string")])) v
  = is_null v || valid D2020 no_env (JObj [("enum", JArr [JStr "A"; JStr "B"]); ("type", JStr "string")]) v.
Proof.
  intros v. apply C35_option_exact_partial; [reflexivity|discriminate|].
  intros m Hm _. injection Hm as <-. split; [discriminate|]. split; [intros H; now elim H|]. reflexivity.
Qed.
Example C35_example_ref : forall v,
  valid D2020 no_env (allow_null (JObj [("$ref", JStr "#/$defs/T")])) v
  = is_null v || valid D2020 no_env (JObj [("$ref", JStr "#/$defs/T")]) v.
Proof. intros v. apply C35_option_of_reference; [reflexivity|discriminate]. Qed.

(** Findings. {"const": null} becomes {}, which accepts everything. *)
Theorem C35_const_null_refuted : exists s v, forall E, is_schema s = true /\
  valid D2020 E s v = false /\ is_null v = false /\ valid D2020 E (allow_null s) v = true.
Proof. exists (JObj [("const", JNull)]), (JStr "anything"). intros E. repeat split; reflexivity. Qed.
Print Assumptions C35_const_null_refuted.

(** A "not" that rejects null keeps rejecting it. *)
Theorem C35_not_refuted : exists s, forall E, is_schema s = true /\ valid D2020 E (allow_null s) JNull = false.
Proof.
  exists (JObj [("not", JObj [("type", JStr "null")])]). intros E. split; reflexivity.
Qed.
Print Assumptions C35_not_refuted.

(** "const" next to "enum": the enum is overwritten, so more is accepted. *)
Theorem C35_const_enum_refuted : exists s v, forall E, is_schema s = true /\
  valid D2020 E s v = false /\ is_null v = false /\ valid D2020 E (allow_null s) v = true.
Proof.
  exists (JObj [("const", JStr "a"); ("enum", JArr [JStr "b"])]), (JStr "a").
  intros E. repeat split; reflexivity.
Qed.
Print Assumptions C35_const_enum_refuted.

(** C37. The tagged schema accepts exactly the objects with the tag value that satisfy the rest:
    for any object schema (the rest with the tag declared), *)
Theorem C37_tag_enforced : forall E tag variant deny m v, usual m -> wf v = true ->
  valid D2020 E (apply_internal_tag tag variant deny (JObj m)) v = true
  <-> exists o, v = JObj o /\ mget tag o = Some (JStr variant)
                /\ valid D2020 E (JObj (with_tag_declared tag deny m)) v = true.
Proof. exact tag_sem. Qed.
Print Assumptions C37_tag_enforced.

(** for a struct schema that does not declare the tag, the rest is the object without the tag; *)
Theorem C37_tag_struct : forall E tag variant deny m v,
  object_shape m -> mget "type" m = Some (JStr "object") ->
  mget tag (props_of m) = None -> ~ In (JStr tag) (required_of m) -> wf v = true ->
  valid D2020 E (apply_internal_tag tag variant deny (JObj m)) v = true
  <-> exists o, v = JObj o /\ mget tag o = Some (JStr variant)
                /\ valid D2020 E (JObj m) (JObj (mdel tag o)) = true.
Proof. exact tag_sem_struct. Qed.
Print Assumptions C37_tag_struct.

(** for a unit variant nothing but the tag is needed, and with deny_unknown_fields nothing else is
    allowed. *)
Theorem C37_tag_unit : forall E tag variant deny v, wf v = true ->
  valid D2020 E (apply_internal_tag tag variant deny unit_schema) v = true
  <-> exists o, v = JObj o /\ mget tag o = Some (JStr variant)
                /\ (deny = true -> forall k, mget k o <> None -> k = tag).
Proof. exact tag_sem_unit. Qed.
Print Assumptions C37_tag_unit.

Definition C37_schema : map_t :=
  [("properties", JObj [("x", JObj [("type", JStr "integer")])]); ("required", JArr [JStr "x"]);
   ("type", JStr "object")].
Example C37_example :
  object_shape C37_schema /\ mget "kind" (props_of C37_schema) = None
  /\ ~ In (JStr "kind") (required_of C37_schema)
  /\ valid D2020 no_env (apply_internal_tag "kind" "A" false (JObj C37_schema))
       (JObj [("kind", JStr "A"); ("x", JNum (NInt 1))]) = true
  /\ valid D2020 no_env (apply_internal_tag "kind" "A" false (JObj C37_schema))
       (JObj [("kind", JStr "B"); ("x", JNum (NInt 1))]) = false
  /\ valid D2020 no_env (apply_internal_tag "kind" "A" false (JObj C37_schema))
       (JObj [("x", JNum (NInt 1))]) = false.
Proof.
  split; [|split; [reflexivity|split; [cbn; intros [H|[]]; discriminate|repeat split; vm_compute; reflexivity]]].
  unfold object_shape. split; [|repeat split; right; try (eexists); reflexivity].
  intros k Hk Hn. cbn in Hk.
  repeat (destruct Hk as [<-|Hk]; [solve [in_names | now elim Hn]|]). destruct Hk.
Qed.

(** C38. The keyword is inserted exactly when the schema lists the type, and nothing else changes. *)
Theorem C38_inserted_exactly : forall s rt key x,
  (matches_type rt s /\ insert_validation s rt key x = insert key x s)
  \/ (~ matches_type rt s /\ insert_validation s rt key x = s).
Proof. exact insert_validation_cases. Qed.
Print Assumptions C38_inserted_exactly.

Theorem C38_nothing_else : forall m rt key x,
  exists m', insert_validation (JObj m) rt key x = JObj m'
    /\ (forall k, k <> key -> mget k m' = mget k m)
    /\ (mget key m' = mget key m \/ mget key m' = Some x).
Proof. exact insert_validation_obj. Qed.
Print Assumptions C38_nothing_else.

(** The whole attribute adds exactly its constraints to the meaning. Partial: the schema has a "type"
    and none of the keywords yet. *)
Theorem C38_attribute_meaning_partial : forall E a s v, ready a s ->
  valid D2020 E (add_mutators a s) v = valid D2020 E s v && satisfies E a v.
Proof. exact add_mutators_sem. Qed.
Print Assumptions C38_attribute_meaning_partial.

Definition C38_attrs : vattrs :=
  VAttrs (Some (LR (Some (JNum (NInt 1))) None None)) None None None None false None
    (Some (VAttrs None (Some (LR None (Some (JNum (NInt 9))) None)) None None None false None None)).
Definition C38_schema : json :=
  JObj [("items", JObj [("type", JStr "integer")]); ("type", JStr "array")].
Example C38_example : ready C38_attrs C38_schema
  /\ valid D2020 no_env (add_mutators C38_attrs C38_schema) (JArr [JNum (NInt 9)]) = true
  /\ valid D2020 no_env (add_mutators C38_attrs C38_schema) (JArr [JNum (NInt 10)]) = false
  /\ valid D2020 no_env (add_mutators C38_attrs C38_schema) (JArr []) = false.
Proof.
  split; [|repeat split; vm_compute; reflexivity].
  cbn. split; [left; eexists; reflexivity|]. split.
  - intros k Hk. cbn in Hk. repeat (destruct Hk as [<-|Hk]; [reflexivity|]). destruct Hk.
  - split; [auto|]. split; [reflexivity|]. eexists. split; [reflexivity|]. cbn. split; [left; eexists; reflexivity|]. split; [|auto].
    intros k Hk. cbn in Hk. repeat (destruct Hk as [<-|Hk]; [reflexivity|]). destruct Hk.
Qed.

(** Findings: a format attribute is inserted whatever the type; *)
Theorem C38_format_refuted : exists a s, ~ lists_type "string" s /\ add_mutators a s <> s
  /\ s_get "format" (add_mutators a s) = Some (JStr "email").
Proof.
  exists (VAttrs None None None None None false (Some "email") None), (JObj [("type", JStr "integer")]).
  split; [|split; [discriminate|reflexivity]].
  intros (m & H & HT). injection H as <-. cbn in HT. destruct HT as [HT|(l & HT & _)]; discriminate.
Qed.
Print Assumptions C38_format_refuted.

(** and on a schema without "type" (a reference to a named string type) length, range and pattern
    are silently dropped, so the constraint is not enforced. *)
Theorem C38_reference_refuted : exists a s v, forall E, e_ref E "#/$defs/Name" v = {| ok := true; ev := fun _ => false |} ->
  satisfies E a v = false /\ valid D2020 E (add_mutators a s) v = true.
Proof.
  exists (VAttrs (Some (LR (Some (JNum (NInt 1))) None None)) None None None None false None None),
    (JObj [("$ref", JStr "#/$defs/Name")]), (JStr "").
  intros E HE. split; [reflexivity|].
  match goal with |- valid _ _ ?s _ = _ => change s with (JObj [("$ref", JStr "#/$defs/Name")]) end.
  apply valid_kw. intros k x Hx. cbn [mget] in Hx.
  destruct (String.eqb_spec k "$ref") as [->|]; [|discriminate]. injection Hx as <-.
  unfold kw. cbn. now rewrite HE.
Qed.
Print Assumptions C38_reference_refuted.

(** C50. The first item wins, in the order schemars, validate, garde; *)
Theorem C50_length_precedence : forall s v g,
  va_length (fst (populate s v g no_vattrs)) = first_some length_item (s ++ v ++ g).
Proof.
  intros s v g. unfold populate. rewrite !process_length, !first_some_app. cbn.
  now destruct (first_some length_item s), (first_some length_item v).
Qed.
Print Assumptions C50_length_precedence.

Theorem C50_range_precedence : forall s v g,
  va_range (fst (populate s v g no_vattrs)) = first_some range_item (s ++ v ++ g).
Proof.
  intros s v g. unfold populate. rewrite !process_range, !first_some_app. cbn.
  now destruct (first_some range_item s), (first_some range_item v).
Qed.
Print Assumptions C50_range_precedence.

(** and at most one of pattern, regex and contains is in force, at every level of nesting. *)
Theorem C50_exclusive : forall s v g, exclusive (fst (populate s v g no_vattrs)).
Proof. intros s v g. unfold populate. repeat apply process_exclusive. apply exclusive_no. Qed.
Print Assumptions C50_exclusive.

Example C50_example :
  let l n := LR (Some (JNum (NInt n))) None None in
  let a := fst (populate [MPattern (Some "^a"); MLength (Some (l 1%Z))] [MContains (Some "b"); MLength (Some (l 2%Z))]
                         [MRange (Some (l 3%Z)); MLength (Some (l 4%Z))] no_vattrs) in
  va_length a = Some (l 1%Z) /\ va_range a = Some (l 3%Z) /\ va_pattern a = Some "^a" /\ va_contains a = None.
Proof. repeat split; reflexivity. Qed.
