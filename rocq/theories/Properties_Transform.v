(** Property theorems C05 (semantic half) and C22-C34 (proofs are in the Transform* files).
    [valid d E s v]: a validator of dialect [d] accepts [v] against the schema [s], with "$ref",
    "pattern" and "format" read by [E] (Validate.v). *)
From Coq Require Import String Ascii List ZArith Bool Lia.
From Verif Require Import Json JsonFacts SchemaApi Validate ValidateFacts Transform TransformSpec
  TransformProofs TransformSem TransformNullable TransformFormats TransformUneval TransformPost
  TransformRec TransformPipe TransformFrame TransformDoc PointerProofs.
Import ListNotations.
Open Scope string_scope.

(** An environment for the examples. *)
Definition E0 : env := Env (fun _ _ => Res true none_ev) (fun _ _ => true) (fun _ _ => true).

(** ** C05: a boolean schema forced into object form accepts the same instances. *)
Theorem C05_bool_conversion_faithful : forall d E b v,
  valid d E (JObj (ensure_obj (JBool b))) v = valid d E (JBool b) v.
Proof.
  intros d E [] v; unfold valid; symmetry;
    [apply (proj1 (eval_true d E v)) | apply (proj1 (eval_false d E v))].
Qed.
Print Assumptions C05_bool_conversion_faithful.
Example C05_bool_example : valid D2020 E0 (JObj (ensure_obj (JBool false))) JNull = false
  /\ valid D2020 E0 (JObj (ensure_obj (JBool true))) JNull = true.
Proof. split; reflexivity. Qed.

(** ** C22: transform_subschemas calls a (possibly stateful) transform on the direct subschemas,
    each once and in order, and rebuilds the schema around the results.
    [repl_map m m' xs ys]: [m'] is [m] with its direct subschemas [xs] (in order) replaced by
    [ys]; [chain t st xs ys st']: calling [t] on [xs] in turn gives [ys], the state going from
    [st] to [st']. *)
Theorem C22_visits_each_once : forall (St : Type) (t : tr St) m st s' st',
  transform_subschemas_st t (JObj m) st = (s', st') ->
  exists m' xs ys, s' = JObj m' /\ repl_map m m' xs ys /\ chain t st xs ys st'.
Proof. intros St t. exact (subschemas_repl t). Qed.
Print Assumptions C22_visits_each_once.

Theorem C22_leaf : forall (St : Type) (t : tr St) s st, is_obj s = false ->
  transform_subschemas_st t s st = (s, st).
Proof. intros St t s st H. now destruct s. Qed.
Print Assumptions C22_leaf.

(** The schemas visited are exactly those at the documented keywords. *)
Theorem C22_visits_exactly : forall (St : Type) (f : json -> json) (step : json -> St -> St) m st,
  exists xs, transform_subschemas_st (with_log f step) (JObj m) st
             = (JObj (tmap f m), fold_left (fun st x => step x st) xs st)
  /\ forall x, In x xs <-> direct_sub m x.
Proof.
  intros St f step m st. exists (direct m). split; [apply subschemas_log|].
  intros x. apply direct_spec.
Qed.
Print Assumptions C22_visits_exactly.

Example C22_example :
  transform_subschemas_st (fun s n => (JObj [("n", JNum (NInt n))], (n + 1)%Z))
    (JObj [("anyOf", JArr [JBool true; JNull; JObj []]); ("const", JBool true);
           ("items", JArr [JBool false]); ("properties", JObj [("not", JBool true)])]) 0%Z
  = (JObj [("anyOf", JArr [JObj [("n", JNum (NInt 0))]; JNull; JObj [("n", JNum (NInt 1))]]);
           ("const", JBool true);
           ("items", JArr [JObj [("n", JNum (NInt 2))]]);
           ("properties", JObj [("not", JObj [("n", JNum (NInt 3))])])], 4%Z).
Proof. reflexivity. Qed.

(** Finding: unevaluatedProperties, dependentSchemas, unevaluatedItems and contentSchema hold
    schemas too, but are not visited. *)
Theorem C22_all_subschemas_refuted : exists k, In k ["unevaluatedProperties"; "unevaluatedItems"; "contentSchema"] /\
  forall (t : json -> json), transform_subschemas t (JObj [(k, JBool true)]) = JObj [(k, JBool true)].
Proof. exists "unevaluatedProperties". split; [cbn; auto|reflexivity]. Qed.
Print Assumptions C22_all_subschemas_refuted.

(** ** C23: RecursiveTransform. [runs inner s st s' st']: the inner transform is applied to [s],
    then recursively to the direct subschemas of its result, in order. *)
Theorem C23_recursive_spec : forall (St : Type) (inner : tr St) n s st s' st',
  recursive_transform n inner s st = Some (s', st') -> runs inner s st s' st'.
Proof. intros St inner. exact (recursive_runs inner). Qed.
Print Assumptions C23_recursive_spec.

(** It returns if some measure of the schema decreases from a schema to the direct subschemas of
    its image (e.g. the depth, for a transform that does not deepen schemas). *)
Theorem C23_terminates : forall (St : Type) (inner : tr St) (mu : json -> nat),
  (forall s st m st' x, inner s st = (JObj m, st') -> direct_sub m x -> mu x < mu s) ->
  forall n s st, mu s < n -> exists s' st', recursive_transform n inner s st = Some (s', st').
Proof. intros St inner. exact (recursive_terminates inner). Qed.
Print Assumptions C23_terminates.

(** Every schema that has to be reached is visited, a parent before its children. *)
Theorem C23_reaches_parents_first : forall (St : Type) (f : json -> json) (step : json -> St -> St)
    (mu : json -> nat),
  (forall s m x, f s = JObj m -> direct_sub m x -> mu x < mu s) ->
  forall n s st, mu s < n ->
  exists s' visited,
    recursive_transform n (with_log f step) s st
      = Some (s', fold_left (fun st x => step x st) visited st)
    /\ (forall x, In x visited <-> reached f s x)
    /\ forall l1 x l2, visited = (l1 ++ x :: l2)%list ->
         (l1 = [] /\ x = s) \/ exists y m, In y l1 /\ f y = JObj m /\ direct_sub m x.
Proof.
  intros St f step mu Hmu n s st Hn. exists (R f n s), (V f n s). repeat split.
  - now apply (recursive_run f step mu).
  - apply (V_reached f mu Hmu); auto.
  - apply (V_reached f mu Hmu); auto.
  - apply V_parents.
Qed.
Print Assumptions C23_reaches_parents_first.

Example C23_example :
  let rename := fun s => match s with JObj m => JObj (mset "x" JNull m) | _ => s end in
  (forall s m x, rename s = JObj m -> direct_sub m x -> depth x < depth s)
  /\ recursive_transform 5 (fun s (n : nat) => (rename s, S n)) (JObj [("not", JObj [("not", JObj [])])]) 0
     = Some (JObj [("not", JObj [("not", JObj [("x", JNull)]); ("x", JNull)]); ("x", JNull)], 3).
Proof.
  split; [|reflexivity]. intros s m x Hs Hx. destruct s as [| | | | |m0]; try discriminate.
  cbn in Hs. injection Hs as <-. apply direct_mset_other in Hx; [|reflexivity]. now apply direct_depth.
Qed.

(** Finding: a transform that adds a subschema at every level makes RecursiveTransform recurse
    without end, whatever the stack size. *)
Theorem C23_always_returns_refuted : exists inner : tr unit,
  forall n, recursive_transform n inner (JObj []) tt = None.
Proof. exists add_not. exact add_not_diverges. Qed.
Print Assumptions C23_always_returns_refuted.

(** ** C24: ReplaceBoolSchemas. *)
Theorem C24_same_meaning : forall skip d E s v, valid d E (replace_bool skip s) v = valid d E s v.
Proof. intros skip d E s v. apply (proj1 (replace_bool_sem skip d E s v)). Qed.
Print Assumptions C24_same_meaning.

Theorem C24_no_bool_schema_left : forall s x, is_schema s = true ->
  nested (replace_bool false s) x -> is_obj x = true.
Proof. exact replace_bool_post. Qed.
Print Assumptions C24_no_bool_schema_left.

(** With skip_additional_properties: none left outside "additionalProperties"… *)
Theorem C24_no_bool_schema_left_skip : forall s x, is_schema s = true ->
  nested_no_ap (replace_bool true s) x -> is_obj x = true.
Proof. exact replace_bool_skip_post. Qed.
Print Assumptions C24_no_bool_schema_left_skip.

(** Exactly what changes: booleans become {} and {"not":{}}, everything else is kept; with
    [skip], the value of "additionalProperties" is kept as it is. *)
Theorem C24_only_bools_change : forall skip s, is_schema s = true -> no_bools skip s (replace_bool skip s).
Proof. exact bool_frame. Qed.
Print Assumptions C24_only_bools_change.

Example C24_example :
  replace_bool true (JObj [("additionalProperties", JBool false); ("default", JBool true);
                           ("properties", JObj [("a", JBool true); ("b", JObj [("not", JBool false)])])])
  = JObj [("additionalProperties", JBool false); ("default", JBool true);
          ("properties", JObj [("a", JObj []); ("b", JObj [("not", JObj [("not", JObj [])])])])].
Proof. reflexivity. Qed.

(** Finding: with skip_additional_properties, boolean schemas nested inside an object-valued
    "additionalProperties" are kept too, although only "additionalProperties" itself should be
    skipped. *)
Theorem C24_skip_only_additional_properties_refuted : exists m,
  replace_bool true (JObj [("additionalProperties", JObj m)]) = JObj [("additionalProperties", JObj m)]
  /\ direct_sub m (JBool true) /\ mget "additionalProperties" m = None.
Proof.
  exists [("items", JBool true)]. split; [reflexivity|]. split; [|reflexivity].
  apply (ds_one _ "items"); cbn; auto 12.
Qed.
Print Assumptions C24_skip_only_additional_properties_refuted.

(** ** C25: RemoveRefSiblings. [ref_ok]: "$ref" is a string and a sibling "allOf" is an array;
    [no_hidden]: no schema in the places that are not traversed. *)
Theorem C25_same_meaning_partial : forall d E s v, d_ref_alone d = false ->
  everywhere (fun m => ref_ok m /\ no_hidden m) s ->
  valid (set_ref_alone d) E (remove_ref_siblings s) v = valid d E s v.
Proof. intros d E s v H1 H2. apply (proj1 (remove_ref_siblings_sem d E s H1 H2 v)). Qed.
Print Assumptions C25_same_meaning_partial.

Theorem C25_ref_alone : forall s, everywhere ref_alone (remove_ref_siblings s).
Proof. exact remove_ref_siblings_post. Qed.
Print Assumptions C25_ref_alone.

Theorem C25_only_refs_change : forall s, bottom_up ref_step s (remove_ref_siblings s).
Proof. exact ref_frame. Qed.
Print Assumptions C25_only_refs_change.

Example C25_example :
  let s := JObj [("$ref", JStr "#/$defs/A"); ("allOf", JArr [JObj []]);
                 ("properties", JObj [("x", JObj [("$ref", JStr "#/$defs/B")])])] in
  everywhere (fun m => ref_ok m /\ no_hidden m) s
  /\ remove_ref_siblings s
     = JObj [("allOf", JArr [JObj []; JObj [("$ref", JStr "#/$defs/A")]]);
             ("properties", JObj [("x", JObj [("$ref", JStr "#/$defs/B")])])].
Proof.
  split; [|reflexivity].
  apply ew_obj; [unfold ref_ok, no_hidden; cbn; auto|]. intros x Hx. apply direct_spec in Hx. cbn in Hx.
  destruct Hx as [<-|[<-|[]]]; (apply ew_obj; [repeat split; cbn; auto|]);
    intros x Hx; apply direct_spec in Hx; destruct Hx.
Qed.

(** Finding: a sibling "allOf" that is not an array makes the reference disappear. *)
Theorem C25_same_meaning_refuted : exists E s v,
  valid D2020 E s v = false /\ valid (set_ref_alone D2020) E (remove_ref_siblings s) v = true.
Proof.
  exists (Env (fun _ _ => Res false none_ev) (fun _ _ => true) (fun _ _ => true)),
    (JObj [("$ref", JStr "#/$defs/A"); ("allOf", JObj [])]), JNull.
  split; reflexivity.
Qed.
Print Assumptions C25_same_meaning_refuted.

(** Finding: references below unevaluatedProperties keep their siblings. *)
Theorem C25_hidden_refuted : exists E s v,
  everywhere ref_ok s /\
  valid D2020 E s v = false /\ valid (set_ref_alone D2020) E (remove_ref_siblings s) v = true.
Proof.
  exists E0, (JObj [("unevaluatedProperties", JObj [("$ref", JStr "#/$defs/A"); ("type", JStr "string")])]),
    (JObj [("x", JNull)]).
  split; [|split; reflexivity]. apply ew_obj; [exact I|]. intros x Hx. apply direct_spec in Hx. destruct Hx.
Qed.
Print Assumptions C25_hidden_refuted.

(** ** C26: ReplaceConstValue. [const_ok]: "const" and "enum" do not occur together. [b] says
    whether the validator of the result still understands "const". *)
Theorem C26_same_meaning_partial : forall d b E s v, d_const d = true ->
  everywhere (fun m => const_ok m /\ no_hidden m) s ->
  valid (set_const b d) E (replace_const s) v = valid d E s v.
Proof. intros d b E s v H1 H2. apply (proj1 (replace_const_sem d b E s H1 H2 v)). Qed.
Print Assumptions C26_same_meaning_partial.

Theorem C26_no_const_left : forall s, everywhere no_const (replace_const s).
Proof. exact replace_const_post. Qed.
Print Assumptions C26_no_const_left.

Theorem C26_only_const_changes : forall s, bottom_up const_step s (replace_const s).
Proof. exact const_frame. Qed.
Print Assumptions C26_only_const_changes.

Example C26_example :
  let s := JObj [("anyOf", JArr [JObj [("const", JNull)]; JObj [("enum", JArr [JBool true])]])] in
  everywhere (fun m => const_ok m /\ no_hidden m) s
  /\ replace_const s = JObj [("anyOf", JArr [JObj [("enum", JArr [JNull])]; JObj [("enum", JArr [JBool true])]])].
Proof.
  split; [|reflexivity].
  apply ew_obj; [repeat split; cbn; unfold const_ok; cbn; auto|]. intros x Hx. apply direct_spec in Hx. cbn in Hx.
  destruct Hx as [<-|[<-|[]]]; (apply ew_obj; [repeat split; unfold const_ok; cbn; auto; congruence|]);
    intros x Hx; apply direct_spec in Hx; destruct Hx.
Qed.

(** Finding: an existing "enum" is overwritten. *)
Theorem C26_same_meaning_refuted : exists s v,
  valid D2020 E0 s v = false /\ valid D2020 E0 (replace_const s) v = true.
Proof.
  exists (JObj [("const", JNull); ("enum", JArr [JBool true])]), JNull. split; reflexivity.
Qed.
Print Assumptions C26_same_meaning_refuted.

(** ** C27: ReplacePrefixItems. [prefix_ok]: the arrays are described in the 2020-12 way. *)
Theorem C27_same_meaning_partial : forall d E s v, d_items d = Prefix ->
  everywhere (fun m => prefix_ok m /\ no_hidden m) s ->
  valid (set_items ArrayItems d) E (replace_prefix_items s) v = valid d E s v.
Proof. intros d E s v H1 H2. apply (proj1 (replace_prefix_items_sem d E s H1 H2 v)). Qed.
Print Assumptions C27_same_meaning_partial.

Theorem C27_no_prefix_left_partial : forall s, everywhere prefix_not_obj s ->
  everywhere no_prefix (replace_prefix_items s).
Proof. exact replace_prefix_post. Qed.
Print Assumptions C27_no_prefix_left_partial.

Theorem C27_only_items_change : forall s, bottom_up prefix_step s (replace_prefix_items s).
Proof. exact prefix_frame. Qed.
Print Assumptions C27_only_items_change.

Example C27_example :
  let s := JObj [("items", JBool false); ("prefixItems", JArr [JObj [("type", JStr "null")]])] in
  everywhere (fun m => prefix_ok m /\ no_hidden m) s
  /\ replace_prefix_items s
     = JObj [("additionalItems", JBool false); ("items", JArr [JObj [("type", JStr "null")]])].
Proof.
  split; [|reflexivity].
  apply ew_obj; [repeat split; cbn; auto|]. intros x Hx. apply direct_spec in Hx. cbn in Hx.
  destruct Hx as [<-|[<-|[]]]; [now apply ew_leaf|]. apply ew_obj; [repeat split|].
  intros x Hx; apply direct_spec in Hx; destruct Hx.
Qed.

(** Finding: a 2020-12 schema that carries a (there meaningless) "additionalItems" and array
    "items" changes meaning; and an object "prefixItems" is not removed everywhere. *)
Theorem C27_same_meaning_refuted : exists s v,
  valid D2020 E0 s v = true /\ valid (set_items ArrayItems D2020) E0 (replace_prefix_items s) v = false.
Proof.
  exists (JObj [("additionalItems", JBool false); ("prefixItems", JArr [])]), (JArr [JNull]).
  split; reflexivity.
Qed.
Print Assumptions C27_same_meaning_refuted.

(** ** C28: SetSingleExample. *)
Theorem C28_same_meaning : forall d E s v, valid d E (set_single_example s) v = valid d E s v.
Proof. intros d E s v. apply (proj1 (set_single_example_sem d E s v)). Qed.
Print Assumptions C28_same_meaning.

Theorem C28_no_examples_left : forall s, everywhere no_examples (set_single_example s).
Proof. exact set_single_example_post. Qed.
Print Assumptions C28_no_examples_left.

(** "example" becomes the first of "examples"; nothing else changes. *)
Theorem C28_only_examples_change : forall s, bottom_up example_step s (set_single_example s).
Proof. exact example_frame. Qed.
Print Assumptions C28_only_examples_change.

Example C28_example :
  set_single_example (JObj [("examples", JArr [JNull; JBool true]); ("items", JObj [("examples", JArr [])])])
  = JObj [("example", JNull); ("items", JObj [])].
Proof. reflexivity. Qed.

(** ** C29: AddNullable. [nullable_ok]: "type" lists names, "nullable" is not used yet, and a
    schema whose only type is null has no "const" if the transform is going to add one. *)
Theorem C29_same_meaning_partial : forall d rm ac E s v, d_nullable d = false ->
  (ac = true -> d_const d = true) ->
  everywhere (fun m => nullable_ok ac m /\ no_hidden m) s ->
  valid (set_nullable true d) E (add_nullable rm ac s) v = valid d E s v.
Proof. intros d rm ac E s v H1 H2 H3. apply (proj1 (add_nullable_sem d rm ac E s H1 H2 H3 v)). Qed.
Print Assumptions C29_same_meaning_partial.

(** With remove_null_type, no "null" is left in "type". *)
Theorem C29_no_null_type_left_partial : forall ac s, everywhere type_names s ->
  everywhere no_null_type (add_nullable true ac s).
Proof. exact add_nullable_post. Qed.
Print Assumptions C29_no_null_type_left_partial.

(** Exactly what changes: "nullable" becomes true where "type" names null; "type" loses it (and
    becomes a plain name if only one is left) and "const" becomes null if there is no other type,
    as configured. *)
Theorem C29_only_null_types_change : forall rm ac s,
  top_down (nullable_step rm ac) s (add_nullable rm ac s).
Proof. exact nullable_frame. Qed.
Print Assumptions C29_only_null_types_change.

Example C29_example :
  let s := JObj [("items", JObj [("type", JStr "null")]); ("type", JArr [JStr "array"; JStr "null"])] in
  everywhere (fun m => nullable_ok true m /\ no_hidden m) s
  /\ add_nullable true true s
     = JObj [("items", JObj [("const", JNull); ("nullable", JBool true)]); ("nullable", JBool true);
             ("type", JStr "array")].
Proof.
  split; [|reflexivity].
  apply ew_obj; [repeat split; cbn; auto|].
  - intros x [<-|[<-|[]]]; reflexivity.
  - intros x Hx. apply direct_spec in Hx. cbn in Hx. destruct Hx as [<-|[]].
    apply ew_obj; [repeat split|]. intros x Hx; apply direct_spec in Hx; destruct Hx.
Qed.

(** Finding: a "const" next to "type": "null" is overwritten. *)
Theorem C29_same_meaning_refuted : exists s v,
  valid D2020 E0 s v = false /\ valid (set_nullable true D2020) E0 (add_nullable true true s) v = true.
Proof. exists (JObj [("const", JBool true); ("type", JStr "null")]), JNull. split; reflexivity. Qed.
Print Assumptions C29_same_meaning_refuted.

(** Finding: with several other types, "type" stays an array, which OpenAPI 3.0 does not allow. *)
Theorem C29_single_type_refuted : exists s ts,
  add_nullable true true s = JObj [("nullable", JBool true); ("type", JArr ts)].
Proof.
  exists (JObj [("type", JArr [JStr "array"; JStr "null"; JStr "string"])]).
  eexists. reflexivity.
Qed.
Print Assumptions C29_single_type_refuted.

(** ** C30: ReplaceUnevaluatedProperties never rejects what was accepted. [positive]: the keyword
    does not occur under "not", "if" or "oneOf", and where it occurs the properties evaluated next
    to it are named literally by "properties". [b] says whether the validator of the result still
    understands the keyword. *)
Theorem C30_accepts_partial : forall d b E s v, d_uneval d = true -> positive s ->
  everywhere (unvisited_ok d (set_uneval b d) E) s ->
  valid d E s v = true -> valid (set_uneval b d) E (replace_uneval s) v = true.
Proof. intros d b E s v H1 H2 H3. apply (replace_uneval_mono d b E s H1 H2 H3 v). Qed.
Print Assumptions C30_accepts_partial.

Theorem C30_no_uneval_left_partial : forall s, everywhere flat_uneval s ->
  everywhere no_uneval (replace_uneval s).
Proof. exact replace_uneval_post. Qed.
Print Assumptions C30_no_uneval_left_partial.

(** Exactly what changes. *)
Theorem C30_only_uneval_changes : forall s, bottom_up uneval_step s (replace_uneval s).
Proof. exact uneval_frame. Qed.
Print Assumptions C30_only_uneval_changes.

Example C30_example :
  let s := JObj [("allOf", JArr [JObj [("properties", JObj [("b", JObj [("type", JStr "null")])])]]);
                 ("properties", JObj [("a", JBool true)]); ("unevaluatedProperties", JBool false)] in
  positive s /\ everywhere (unvisited_ok D2020 (set_uneval false D2020) E0) s
  /\ valid D2020 E0 s (JObj [("a", JNull); ("b", JNull)]) = true
  /\ valid D2020 E0 s (JObj [("a", JNull); ("c", JNull)]) = false
  /\ replace_uneval s
     = JObj [("additionalProperties", JBool false);
             ("allOf", JArr [JObj [("properties", JObj [("b", JObj [("type", JStr "null")])])]]);
             ("properties", JObj [("a", JBool true); ("b", JBool true)])].
Proof.
  split; [|split; [|repeat split]].
  - apply pos_obj.
    + intros _. split; [|split; [exact I|]].
      * intros k Hk. cbn in Hk. intuition (subst; reflexivity).
      * intros x Hx. destruct Hx as [k x Hk Hin Hs|k l x Hk Hin Hl Hs].
        -- cbn in Hin. destruct Hin as [H|[H|[H|[]]]]; injection H as <- <-; cbn in Hk; intuition discriminate.
        -- cbn in Hin. destruct Hin as [H|[H|[H|[]]]]; try discriminate H. injection H as <- <-.
           destruct Hl as [<-|[]]. apply closed_obj.
           ++ intros k Hk'. cbn in Hk'. intuition (subst; reflexivity).
           ++ intros x Hx. destruct Hx as [k x Hk' Hin Hs'|k l x Hk' Hin Hl Hs'];
                cbn in Hin; destruct Hin as [H|[]]; try discriminate H; injection H as <- <-; cbn in Hk'; intuition discriminate.
    + intros x Hx. destruct Hx as [k x Hk Hin|l x Hin Hl];
        cbn in Hin; destruct Hin as [H|[H|[H|[]]]]; try discriminate H; injection H as <- <-; cbn in Hk; intuition discriminate.
    + intros x Hx. apply direct_spec in Hx. cbn in Hx. destruct Hx as [<-|[<-|[]]]; [|now apply pos_leaf].
      apply pos_obj.
      * intros H. now contradict H.
      * intros x Hx. destruct Hx as [k x Hk Hin|l x Hin Hl];
          cbn in Hin; destruct Hin as [H|[]]; try discriminate H; injection H as <- <-; cbn in Hk; intuition discriminate.
      * intros x Hx. apply direct_spec in Hx. cbn in Hx. destruct Hx as [<-|[]]. apply pos_obj.
        -- intros H. now contradict H.
        -- intros x Hx. destruct Hx as [k x Hk Hin|l x Hin Hl];
          cbn in Hin; destruct Hin as [H|[]]; try discriminate H; injection H as <- <-; cbn in Hk; intuition discriminate.
        -- intros x Hx. apply direct_spec in Hx. destruct Hx.
  - apply everywhere_impl with (P := no_hidden); [intros m; apply no_hidden_ok|].
    apply ew_obj; [repeat split|]. intros x Hx. apply direct_spec in Hx. cbn in Hx.
    destruct Hx as [<-|[<-|[]]]; [|now apply ew_leaf]. apply ew_obj; [repeat split|].
    intros x Hx. apply direct_spec in Hx. cbn in Hx. destruct Hx as [<-|[]]. apply ew_obj; [repeat split|].
    intros x Hx. apply direct_spec in Hx. destruct Hx.
Qed.

(** Finding: properties evaluated by a reference are not known to the transform, so instances
    that were accepted are rejected. *)
Theorem C30_accepts_refuted : exists E s v,
  valid D2020 E s v = true /\ valid D2020 E (replace_uneval s) v = false.
Proof.
  exists (Env (fun _ _ => Res true (fun k => String.eqb k "a")) (fun _ _ => true) (fun _ _ => true)),
    (JObj [("allOf", JArr [JObj [("$ref", JStr "#/$defs/A")]]); ("unevaluatedProperties", JBool false)]),
    (JObj [("a", JNull)]).
  split; reflexivity.
Qed.
Print Assumptions C30_accepts_refuted.

(** Finding: the same for properties matched by "patternProperties" in a subschema, a keyword that
    schemars itself generates for flattened maps with restricted keys. *)
Theorem C30_patterns_refuted : exists s v,
  valid D2020 E0 s v = true /\ valid D2020 E0 (replace_uneval s) v = false.
Proof.
  exists (JObj [("allOf", JArr [JObj [("patternProperties", JObj [("^a$", JBool true)])]]);
                ("unevaluatedProperties", JBool false)]), (JObj [("a", JNull)]).
  split; reflexivity.
Qed.
Print Assumptions C30_patterns_refuted.

(** Finding: a keyword inside an object-valued "unevaluatedProperties" survives. *)
Theorem C30_no_uneval_left_refuted : exists s, ~ everywhere no_uneval (replace_uneval s).
Proof.
  exists (JObj [("unevaluatedProperties", JObj [("unevaluatedProperties", JBool false)])]).
  intros H. apply everywhere_inv in H as [_ H].
  specialize (H (JObj [("unevaluatedProperties", JBool false)])).
  assert (HD : everywhere no_uneval (JObj [("unevaluatedProperties", JBool false)])).
  { apply H. apply (ds_one _ "additionalProperties"); cbn; auto 12. }
  apply everywhere_inv in HD as [HD _]. discriminate HD.
Qed.
Print Assumptions C30_no_uneval_left_refuted.

(** ** C31: RestrictFormats. *)
(** Exactly which formats are kept: those permitted by the list or by the meta schema in force. *)
Theorem C31_exactly : forall infer allowed s,
  restricted infer allowed None s (restrict_formats infer allowed s).
Proof. intros infer allowed s. rewrite restrict_formats_RF. apply formats_frame. Qed.
Print Assumptions C31_exactly.

Theorem C31_only_permitted_left : forall infer allowed s c m f,
  visits infer None (restrict_formats infer allowed s) c m ->
  mget "format" m = Some (JStr f) -> permitted allowed c f = true.
Proof. intros infer allowed s. rewrite restrict_formats_RF. apply RF_permitted. Qed.
Print Assumptions C31_only_permitted_left.

Theorem C31_only_formats_removed : forall infer allowed s,
  only_formats_dropped s (restrict_formats infer allowed s).
Proof. intros infer allowed s. rewrite restrict_formats_RF. apply RF_only_formats. Qed.
Print Assumptions C31_only_formats_removed.

(** No validation result changes where "format" is an annotation. *)
Theorem C31_same_meaning : forall infer allowed d E s v, (forall f x, e_fmt E f x = true) ->
  valid d E (restrict_formats infer allowed s) v = valid d E s v.
Proof. intros infer allowed d E s v H. rewrite restrict_formats_RF. apply (proj1 (RF_sem infer allowed d E s H None v)). Qed.
Print Assumptions C31_same_meaning.

(** With an unrecognised "$schema", nothing is removed. *)
Theorem C31_unknown_meta_schema : forall allowed m x, mget "$schema" m = Some x ->
  x <> JStr "http://json-schema.org/draft-07/schema#" ->
  x <> JStr "https://json-schema.org/draft/2019-09/schema" ->
  x <> JStr "https://json-schema.org/draft/2020-12/schema" ->
  restrict_formats true allowed (JObj m) = JObj m.
Proof.
  intros allowed m x Hx H1 H2 H3. rewrite restrict_formats_RF, RF_obj. unfold next_ctx. rewrite Hx.
  assert (E : forall u, match x with JStr y => y | _ => "" end = u -> u <> "" -> x = JStr u).
  { intros u. destruct x; intros <-; congruence. }
  destruct (String.eqb_spec (match x with JStr y => y | _ => "" end) uri_draft07) as [e|_];
    [now apply E in e|].
  destruct (String.eqb_spec (match x with JStr y => y | _ => "" end) uri_2019) as [e|_];
    [now apply E in e|].
  destruct (String.eqb_spec (match x with JStr y => y | _ => "" end) uri_2020) as [e|_];
    [now apply E in e|]. reflexivity.
Qed.
Print Assumptions C31_unknown_meta_schema.

Example C31_example :
  restrict_formats true ["ok"] (JObj
    [("$schema", JStr "https://json-schema.org/draft/2020-12/schema");
     ("anyOf", JArr [JObj [("format", JStr "uuid")];
                     JObj [("$schema", JStr "http://json-schema.org/draft-07/schema#"); ("format", JStr "uuid")];
                     JObj [("format", JStr "ok")]; JObj [("format", JStr "no")]])])
  = JObj
    [("$schema", JStr "https://json-schema.org/draft/2020-12/schema");
     ("anyOf", JArr [JObj [("format", JStr "uuid")];
                     JObj [("$schema", JStr "http://json-schema.org/draft-07/schema#")];
                     JObj [("format", JStr "ok")]; JObj []])].
Proof. reflexivity. Qed.

(** Finding: contrary to the documentation of infer_from_meta_schema, with a missing "$schema"
    every format that is not explicitly allowed is removed. *)
Theorem C31_missing_meta_schema_refuted : exists m, mget "$schema" m = None /\
  mget "format" m = Some (JStr "date-time") /\ restrict_formats true [] (JObj m) = JObj [].
Proof. exists [("format", JStr "date-time")]. repeat split. Qed.
Print Assumptions C31_missing_meta_schema_refuted.

(** ** C32: idempotence. *)
Theorem C32_replace_bool : forall skip s, wf s = true ->
  replace_bool skip (replace_bool skip s) = replace_bool skip s.
Proof. exact replace_bool_idem. Qed.
Print Assumptions C32_replace_bool.
Theorem C32_remove_ref_siblings : forall s, remove_ref_siblings (remove_ref_siblings s) = remove_ref_siblings s.
Proof. exact remove_ref_siblings_idem. Qed.
Print Assumptions C32_remove_ref_siblings.
Theorem C32_set_single_example : forall s, set_single_example (set_single_example s) = set_single_example s.
Proof. exact set_single_example_idem. Qed.
Print Assumptions C32_set_single_example.
Theorem C32_replace_const : forall s, replace_const (replace_const s) = replace_const s.
Proof. exact replace_const_idem. Qed.
Print Assumptions C32_replace_const.
Theorem C32_replace_prefix_partial : forall s, everywhere prefix_not_obj s ->
  replace_prefix_items (replace_prefix_items s) = replace_prefix_items s.
Proof. exact replace_prefix_idem. Qed.
Print Assumptions C32_replace_prefix_partial.
Theorem C32_add_nullable_partial : forall ac s, everywhere type_names s ->
  add_nullable true ac (add_nullable true ac s) = add_nullable true ac s.
Proof. exact add_nullable_idem. Qed.
Print Assumptions C32_add_nullable_partial.
Theorem C32_replace_uneval_partial : forall s, everywhere flat_uneval s ->
  replace_uneval (replace_uneval s) = replace_uneval s.
Proof. exact replace_uneval_idem. Qed.
Print Assumptions C32_replace_uneval_partial.
Theorem C32_restrict_formats : forall infer allowed s,
  restrict_formats infer allowed (restrict_formats infer allowed s) = restrict_formats infer allowed s.
Proof. intros infer allowed s. rewrite !restrict_formats_RF. apply RF_idem. Qed.
Print Assumptions C32_restrict_formats.

(** Findings: the three partial ones are not idempotent in general. *)
Theorem C32_replace_uneval_refuted : exists s, replace_uneval (replace_uneval s) <> replace_uneval s.
Proof.
  exists (JObj [("unevaluatedProperties", JObj [("unevaluatedProperties", JBool false)])]). discriminate.
Qed.
Print Assumptions C32_replace_uneval_refuted.
Theorem C32_replace_prefix_refuted : exists s, replace_prefix_items (replace_prefix_items s) <> replace_prefix_items s.
Proof. exists (JObj [("prefixItems", JObj [("prefixItems", JArr [])])]). discriminate. Qed.
Print Assumptions C32_replace_prefix_refuted.
Theorem C32_add_nullable_refuted : exists s, add_nullable true true (add_nullable true true s) <> add_nullable true true s.
Proof. exists (JObj [("type", JArr [JArr [JStr "null"]; JStr "null"])]). discriminate. Qed.
Print Assumptions C32_add_nullable_refuted.

(** ** C33: the transforms of SchemaSettings::draft07 (and draft2019_09). [shape07]: "$ref" is a
    string, "allOf" beside it an array, tuples are written in the 2020-12 way, no schema in
    unvisited places. *)
Theorem C33_draft07_same_meaning_partial : forall E s v,
  everywhere (fun m => shape07 m /\ no_uneval m) s ->
  valid D07 E (draft07_transforms s) v = valid D2020 E s v.
Proof. intros E s v H. apply (proj1 (draft07_exact E s H v)). Qed.
Print Assumptions C33_draft07_same_meaning_partial.

(** With unevaluatedProperties, never stricter. *)
Theorem C33_draft07_accepts_partial : forall E s v, positive s -> everywhere shape07 s ->
  valid D2020 E s v = true -> valid D07 E (draft07_transforms s) v = true.
Proof. intros E s v H1 H2. apply (draft07_accepts E s H1 H2 v). Qed.
Print Assumptions C33_draft07_accepts_partial.

Theorem C33_draft2019_same_meaning_partial : forall E s v,
  everywhere (fun m => prefix_ok m /\ no_hidden m) s ->
  valid D2019 E (draft2019_transforms s) v = valid D2020 E s v.
Proof. intros E s v H. apply (proj1 (draft2019_exact E s H v)). Qed.
Print Assumptions C33_draft2019_same_meaning_partial.

(** Whole documents: whatever meaning of the references into "definitions" (or "$defs") is right
    for the original document under 2020-12 is right for the transformed one under draft-07, and
    conversely; so the two documents accept the same instances. *)
Theorem C33_draft07_document_partial : forall E dk ref m,
  In dk ["$defs"; "definitions"] ->
  everywhere (fun m => shape07 m /\ no_uneval m) (JObj m) ->
  interprets D07 E dk ref (draft07_transforms (JObj m)) <-> interprets D2020 E dk ref (JObj m).
Proof.
  intros E dk ref m Hk H.
  apply (interprets_iff D2020 D07 E dk draft07_transforms (fun m => shape07 m /\ no_uneval m)); auto.
  - now apply on_defs_draft07.
  - apply draft07_exact.
Qed.
Print Assumptions C33_draft07_document_partial.

Theorem C33_draft2019_document_partial : forall E dk ref m,
  In dk ["$defs"; "definitions"] ->
  everywhere (fun m => prefix_ok m /\ no_hidden m) (JObj m) ->
  interprets D2019 E dk ref (draft2019_transforms (JObj m)) <-> interprets D2020 E dk ref (JObj m).
Proof.
  intros E dk ref m Hk H.
  apply (interprets_iff D2020 D2019 E dk draft2019_transforms (fun m => prefix_ok m /\ no_hidden m)); auto.
  - now apply on_defs_draft2019.
  - apply draft2019_exact.
Qed.
Print Assumptions C33_draft2019_document_partial.

Example C33_example :
  let s := JObj [("definitions", JObj [("A", JObj [("prefixItems", JArr [JBool true]); ("type", JStr "array")])]);
                 ("properties", JObj [("a", JObj [("$ref", JStr "#/definitions/A"); ("title", JStr "t")])])] in
  everywhere (fun m => shape07 m /\ no_uneval m) s
  /\ draft07_transforms s
     = JObj [("definitions", JObj [("A", JObj [("items", JArr [JBool true]); ("type", JStr "array")])]);
             ("properties", JObj [("a", JObj [("allOf", JArr [JObj [("$ref", JStr "#/definitions/A")]]); ("title", JStr "t")])])].
Proof.
  split; [|reflexivity].
  apply ew_obj; [repeat split; cbn; auto|]. intros x Hx. apply direct_spec in Hx. cbn in Hx.
  destruct Hx as [<-|[<-|[]]].
  - apply ew_obj; [repeat split; cbn; auto|]. intros x Hx. apply direct_spec in Hx. cbn in Hx.
    destruct Hx as [<-|[]]. now apply ew_leaf.
  - apply ew_obj; [repeat split; cbn; auto|]. intros x Hx. apply direct_spec in Hx. destruct Hx.
Qed.

(** ** C34: the transforms of SchemaSettings::openapi3. [shape_oas] additionally excludes what
    OpenAPI 3.0 cannot express (tuples, patternProperties, propertyNames, contains, if). *)
Theorem C34_same_meaning_partial : forall E s v,
  everywhere (fun m => shape_oas m /\ no_uneval m) s ->
  valid OAS30 E (openapi3_transforms s) v = valid D2020 E s v.
Proof. intros E s v H. apply (proj1 (openapi3_exact E s H v)). Qed.
Print Assumptions C34_same_meaning_partial.

Theorem C34_accepts_partial : forall E s v, positive s -> everywhere shape_oas s ->
  valid D2020 E s v = true -> valid OAS30 E (openapi3_transforms s) v = true.
Proof. intros E s v H1 H2. apply (openapi3_accepts E s H1 H2 v). Qed.
Print Assumptions C34_accepts_partial.

Example C34_example :
  let s := JObj [("properties", JObj [("a", JObj [("type", JArr [JStr "string"; JStr "null"])]); ("b", JObj [("const", JStr "x")])])] in
  everywhere (fun m => shape_oas m /\ no_uneval m) s
  /\ openapi3_transforms s
     = JObj [("properties", JObj [("a", JObj [("nullable", JBool true); ("type", JStr "string")]);
                                  ("b", JObj [("enum", JArr [JStr "x"])])])].
Proof.
  split; [|reflexivity].
  assert (HA : forall (m : map_t), (forall k, In k ["patternProperties"; "propertyNames"; "contains"; "if"] -> mget k m = None) ->
    absent ["patternProperties"; "propertyNames"; "contains"; "if"] m) by auto.
  apply ew_obj.
  - unfold shape_oas, const_ok, ref_ok, items_ok, no_hidden, nullable_ok, no_uneval. cbn. intuition.
    intros k Hk. cbn in Hk. intuition (subst; reflexivity).
  - intros x Hx. apply direct_spec in Hx. cbn in Hx. destruct Hx as [<-|[<-|[]]].
    + apply ew_obj; [|intros x Hx; apply direct_spec in Hx; destruct Hx].
      unfold shape_oas, const_ok, ref_ok, items_ok, no_hidden, nullable_ok, no_uneval. cbn. intuition; subst; auto.
      intros k Hk. cbn in Hk. intuition (subst; reflexivity).
    + apply ew_obj; [|intros x Hx; apply direct_spec in Hx; destruct Hx].
      unfold shape_oas, const_ok, ref_ok, items_ok, no_hidden, nullable_ok, no_uneval. cbn. intuition; subst; auto.
      intros k Hk. cbn in Hk. intuition (subst; reflexivity).
Qed.

(** Finding: a tuple loses its meaning in OpenAPI 3.0 ("items" becomes an array). *)
Theorem C34_same_meaning_refuted : exists s v,
  valid D2020 E0 s v = false /\ valid OAS30 E0 (openapi3_transforms s) v = true.
Proof.
  exists (JObj [("prefixItems", JArr [JObj [("type", JStr "null")]])]), (JArr [JBool true]).
  split; reflexivity.
Qed.
Print Assumptions C34_same_meaning_refuted.

(** Finding: the openapi3 settings put definitions under "components", which no transform visits:
    a document from root_schema_for keeps untransformed definitions. *)
Theorem C34_components_refuted : forall defs,
  openapi3_transforms (JObj [("components", JObj [("schemas", JObj defs)])])
  = JObj [("components", JObj [("schemas", JObj defs)])].
Proof.
  intros defs. unfold openapi3_transforms.
  assert (HE : forall P : map_t -> Prop, P [("components", JObj [("schemas", JObj defs)])] ->
    everywhere P (JObj [("components", JObj [("schemas", JObj defs)])])).
  { intros P HP. apply ew_obj; auto. intros x Hx. apply direct_spec in Hx. destruct Hx. }
  rewrite T_same by (apply HE; reflexivity).
  rewrite (replace_bool_fix true).
  2:{ apply bf_obj; [reflexivity|]. intros x Hx. apply direct_spec in Hx. destruct Hx. }
  rewrite add_nullable_fix by (apply HE; split; [discriminate|intros l Hl; discriminate]).
  rewrite remove_ref_siblings_fix by (apply HE; intros r Hr; discriminate).
  rewrite set_single_example_fix by (apply HE; reflexivity).
  rewrite replace_const_fix by (apply HE; reflexivity).
  now rewrite replace_prefix_fix by (apply HE; reflexivity).
Qed.
Print Assumptions C34_components_refuted.
