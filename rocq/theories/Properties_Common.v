(** C58 and C59: what the metadata attributes of a container, variant or field do to its schema, and
    which attribute items are accepted. *)
From Coq Require Import String Ascii List Bool ZArith.
From Verif Require Import Json JsonFacts Transform TransformProofs SchemaApi Private Utf8 Rustdoc RustdocProofs EncodingProofs Attrs CommonAttrs CommonFacts CommonErrors.
Import ListNotations.
Open Scope string_scope.

(** ** C58. Metadata *)
(** The metadata attributes read from the items of the schemars and serde attributes; whatever the
    kind of thing they are on ([val], [h], [start]). *)
Definition metadata {A} (paths exprs : string -> bool) val (h : origin -> handler A) start ms ds : common :=
  fst (fst (populate paths exprs val h start ms ds)).

(** Without transforms: after the statements every keyword of the schema has what the attributes say
    about it (CommonFacts.v [told]), or if they say nothing, what it had; and if they say nothing at
    all the schema is the same (also if it is `true` or `false`). *)
Theorem C58_metadata {A} : forall paths exprs val (h : origin -> handler A) start ms ds docs deprecated s s',
  values_of "transform" (ms ++ ds) = [] ->
  common_mutators (metadata paths exprs val h start ms ds) (get_doc docs) deprecated s = Some s' ->
  (forall k, mget k (ensure_obj s')
     = match told (ms ++ ds) (doc_parts docs) deprecated k with Some v => Some v | None => mget k (ensure_obj s) end)
  /\ ((forall k, told (ms ++ ds) (doc_parts docs) deprecated k = None) -> s' = s).
Proof.
  intros paths exprs val h start ms ds docs dep s s' HT HM. unfold metadata in HM. rewrite populate_collect, transforms_last, HT in HM.
  assert (HB : before_transforms (ms ++ ds) docs dep s = Some s').
  { destruct (before_transforms (ms ++ ds) docs dep s); [exact HM|discriminate]. }
  split; [exact (before_get _ _ _ _ _ HB)|exact (before_id _ _ _ _ _ HB)].
Qed.
Print Assumptions C58_metadata.

(** The transforms run last: in the order written, each once, on the schema that the same items
    without the transforms give. *)
Definition no_transforms (ms : list meta) : list meta := filter (fun m => negb (named "transform" m)) ms.
Lemma no_transforms_shapes n ms : n <> "transform" -> shapes n (no_transforms ms) = shapes n ms.
Proof.
  intros HN. induction ms as [|[[k|] p x] ms IH]; [reflexivity| |exact IH]. cbn [no_transforms filter named m_name]. rewrite shapes_cons. cbn [named m_name].
  destruct (String.eqb_spec k "transform") as [->|].
  - cbn [negb]. replace (String.eqb "transform" n) with false by (symmetry; apply String.eqb_neq; congruence). exact IH.
  - cbn [negb]. fold (no_transforms ms). rewrite shapes_cons. cbn [named m_name]. now rewrite IH.
Qed.
Lemma no_transforms_none ms : shapes "transform" (no_transforms ms) = [].
Proof.
  unfold no_transforms, shapes. induction ms as [|m ms IH]; [reflexivity|]. cbn. destruct (named "transform" m) eqn:E; [exact IH|]. cbn. now rewrite E.
Qed.
Lemma collected_shapes ms ns : (forall n, n <> "transform" -> shapes n ms = shapes n ns) ->
  forall c c', c = collected no_common ms -> c' = collected no_common ns ->
  c_title c = c_title c' /\ c_description c = c_description c' /\ c_examples c = c_examples c' /\ c_extensions c = c_extensions c'.
Proof.
  intros H c c' -> ->. unfold collected, values_of, extend_args. cbn [c_title c_description c_examples c_extensions].
  now rewrite !H by discriminate.
Qed.
Theorem C58_transforms_last {A} : forall paths exprs val (h : origin -> handler A) start ms ds docs deprecated s,
  common_mutators (metadata paths exprs val h start ms ds) (get_doc docs) deprecated s
  = option_map (fun s' => fold_left (fun s e => match e with ECode _ _ f => f s | ELit _ => s end) (values_of "transform" (ms ++ ds)) s')
      (common_mutators (metadata paths exprs val h start (no_transforms ms) (no_transforms ds)) (get_doc docs) deprecated s).
Proof.
  intros paths exprs val h start ms ds docs dep s. unfold metadata. rewrite !populate_collect, !transforms_last.
  replace (no_transforms ms ++ no_transforms ds)%list with (no_transforms (ms ++ ds)) by apply filter_app.
  assert (HV : values_of "transform" (no_transforms (ms ++ ds)) = []) by (unfold values_of; now rewrite no_transforms_none).
  rewrite HV. unfold before_transforms.
  destruct (collected_shapes (no_transforms (ms ++ ds)) (ms ++ ds) (fun n => no_transforms_shapes n _) _ _ eq_refl eq_refl) as (-> & -> & -> & ->).
  destruct (common_mutators _ _ _ _); reflexivity.
Qed.
Print Assumptions C58_transforms_last.

(** The statements run without a panic if the doc comments are UTF-8 *)
Lemma get_doc_utf8 docs d : Forall (fun e => utf8_valid (expr_text e) = true) docs -> get_doc docs = Some d -> utf8_valid d = true.
Proof.
  assert (HL : forall e, utf8_valid (expr_text e) = true -> utf8 (doc_line e)).
  { intros [[|a t]|t v f] H; cbn [doc_line expr_text] in *; try now apply utf8_valid_utf8.
    destruct (Ascii.eqb_spec a " ") as [->|]; [|now apply utf8_valid_utf8]. apply utf8_valid_utf8. exact H. }
  intros H. revert d. induction H as [|e docs H _ IH]; intros d; [discriminate|]. cbn [get_doc]. intros [= <-]. apply utf8_utf8_valid.
  destruct (get_doc docs) as [d'|]; [|now apply HL].
  apply utf8_app; [now apply HL|]. apply U1; [reflexivity|]. apply utf8_valid_utf8. now apply IH.
Qed.
Theorem C58_runs {A} : forall paths exprs val (h : origin -> handler A) start ms ds docs deprecated s,
  Forall (fun e => utf8_valid (expr_text e) = true) docs ->
  common_mutators (metadata paths exprs val h start ms ds) (get_doc docs) deprecated s <> None.
Proof.
  intros paths exprs val h start ms ds docs dep s HU. unfold common_mutators, title_and_description.
  destruct (get_doc docs) as [d|] eqn:ED; [|discriminate]. destruct (split_ok d (get_doc_utf8 _ _ HU ED)) as (t & x & -> & _). discriminate.
Qed.
Print Assumptions C58_runs.

(** The doc comment is the lines `/// ...` without their leading space, joined by newlines *)
Theorem C58_doc_lines : forall l lines, get_doc (map (fun l => ELit (String " " l)) (l :: lines)) = Some (String.concat (String "010" "") (l :: lines)).
Proof. intros l lines. now apply get_doc_concat. Qed.
Print Assumptions C58_doc_lines.

(** Only the order of items with the same name counts, and schemars items come before serde items *)
Theorem C58_order {A B} : forall paths exprs val val' (h : origin -> handler A) (h' : origin -> handler B) start start' ms ds ms' ds',
  (forall n, shapes n (ms ++ ds) = shapes n (ms' ++ ds')) ->
  metadata paths exprs val h start ms ds = metadata paths exprs val' h' start' ms' ds'.
Proof.
  intros paths exprs val val' h h' start start' ms ds ms' ds' H. unfold metadata. rewrite !populate_collect.
  unfold collected, values_of, extend_args. now rewrite !H.
Qed.
Print Assumptions C58_order.

Definition item (n : string) (s : shape) : meta := Meta (Some n) n s.
Definition ex_items : list meta :=
  [item "title" (SValue (ELit "T")); item "example" (SValue (ELit "one example"));
   item "extend" (SList (Some [("x-a", JNum (NInt 1%Z)); ("deprecated", JBool false)]));
   item "example" (SValue (ECode "code()" (Some (JNum (NInt 2%Z))) (fun s => s)))].
Definition no_path (s : string) : bool := String.eqb s "path" || String.eqb s "Type".
Definition ex_docs : list expr := map (fun l => ELit (String " " l)) ["# Heading"; ""; "Some text."].
Example C58_example :
  option_map (fun s => map (fun k => mget k (ensure_obj s)) ["title"; "description"; "examples"; "deprecated"; "x-a"; "type"])
    (common_mutators (metadata no_path no_path false (fun o => with_meta no_path no_path true o) None ex_items []) (get_doc ex_docs) true
       (JObj [("type", JStr "string"); ("title", JStr "old")]))
  = Some [Some (JStr "T"); Some (JStr "Some text."); Some (JArr [JStr "one example"; JNum (NInt 2%Z)]); Some (JBool false); Some (JNum (NInt 1%Z)); Some (JStr "string")]
  /\ values_of "transform" ex_items = []
  /\ snd (variant_attrs no_path no_path no_path ex_items []) = []
  /\ doc_parts ex_docs = Some ("Heading", "Some text.")
  /\ map (told ex_items (doc_parts ex_docs) true) ["title"; "description"; "examples"; "deprecated"; "x-a"; "type"]
     = [Some (JStr "T"); Some (JStr "Some text."); Some (JArr [JStr "one example"; JNum (NInt 2%Z)]); Some (JBool false); Some (JNum (NInt 1%Z)); None].
Proof. repeat split; vm_compute; reflexivity. Qed.

(** An example that serde_json cannot serialize is left out without an error; "examples" may be empty *)
Theorem C58_example_dropped_refuted : exists ms s',
  snd (variant_attrs no_path no_path no_path ms []) = []
  /\ List.length (values_of "example" ms) = 1
  /\ common_mutators (metadata no_path no_path false (fun o => with_meta no_path no_path true o) None ms []) None false (JObj []) = Some s'
  /\ mget "examples" (ensure_obj s') = Some (JArr []).
Proof.
  exists [item "example" (SValue (ECode "unserializable()" None (fun s => s)))]. eexists. repeat split; vm_compute; reflexivity.
Qed.
Print Assumptions C58_example_dropped_refuted.

(** ** C59. Which items are accepted *)
(** [serde_items]: serde has accepted its own items, and its `with` is a path. [paths], [exprs],
    [types] say which texts parse as a path, an expression and a type. *)
Theorem C59_field_items : forall paths exprs types ms ds, serde_items types ds ->
  (snd (field_attrs paths exprs types ms ds) = []
   <-> common_ok paths exprs no_common ms /\ with_ok paths types None ms
       /\ known (common_names ++ validation_names ++ with_names ++ parsed_by_serde) ms).
Proof. exact field_clean. Qed.
Print Assumptions C59_field_items.

Theorem C59_variant_items : forall paths exprs types ms ds, serde_items types ds ->
  (snd (variant_attrs paths exprs types ms ds) = []
   <-> common_ok paths exprs no_common ms /\ with_ok paths types None ms
       /\ known (common_names ++ with_names ++ parsed_by_serde) ms).
Proof. exact variant_clean. Qed.
Print Assumptions C59_variant_items.

Theorem C59_container_items : forall paths exprs types is_enum ms ds, serde_items types ds -> no_unset ms ->
  (snd (container_attrs paths exprs types is_enum ms ds) = []
   <-> common_ok paths exprs no_common ms /\ container_ok paths types is_enum no_container ms
       /\ known (common_names ++ container_names ++ parsed_by_serde) ms).
Proof. exact container_clean. Qed.
Print Assumptions C59_container_items.

(** What accepted items say about where the schema comes from: the type or function of the schemars
    item, else the type of the serde item. For a container serde's `with` does not exist. *)
Theorem C59_source : forall paths exprs types ms ds, serde_items types ds ->
  (snd (field_attrs paths exprs types ms ds) = [] -> snd (fst (field_attrs paths exprs types ms ds)) = with_source ms ds)
  /\ (snd (variant_attrs paths exprs types ms ds) = [] -> snd (fst (variant_attrs paths exprs types ms ds)) = with_source ms ds)
  /\ (forall is_enum, no_unset ms -> snd (container_attrs paths exprs types is_enum ms ds) = [] ->
        snd (fst (container_attrs paths exprs types is_enum ms ds))
        = Container (hd_error (lits "crate" ms)) (hd_error (lits "rename" ms)) (has "inline" ms) (has "_unstable_ref_variants" ms) (with_source ms [])).
Proof.
  intros paths exprs types ms ds HD. split; [now apply field_source|]. split; [now apply variant_source|].
  intros en HU HE. now apply (container_reads paths exprs types en ms ds).
Qed.
Print Assumptions C59_source.

Example C59_example :
  let ms := [item "with" (SValue (ELit "Type")); item "title" (SValue (ELit "T")); item "length" (SList None); item "default" SPath] in
  let ds := [item "rename" (SValue (ELit "x")); item "with" (SValue (ELit "path"))] in
  snd (field_attrs no_path no_path no_path ms ds) = []
  /\ snd (fst (field_attrs no_path no_path no_path ms ds)) = Some (WType "Type")
  /\ snd (fst (field_attrs no_path no_path no_path [] ds)) = Some (WType "path")
  /\ snd (variant_attrs no_path no_path no_path ms ds) = [EUnknown "length"]
  /\ snd (field_attrs no_path no_path no_path (item "schema_with" (SValue (ELit "path")) :: ms) ds) = [EExclusive "with" "schema_with"]
  /\ snd (field_attrs no_path no_path no_path (item "title" SPath :: ms) ds) = [EValue "title"]
  /\ snd (field_attrs no_path no_path no_path (item "title" (SValue (ELit "S")) :: ms) ds) = [EDuplicate "title"]
  /\ snd (field_attrs no_path no_path no_path (item "example" (SValue (ELit "path")) :: ms) ds) = [EExample "path"]
  /\ snd (container_attrs no_path no_path no_path false [item "_unstable_ref_variants" SPath] []) = [EEnum]
  /\ serde_items no_path ds /\ no_unset ms.
Proof.
  cbv zeta. do 9 (split; [vm_compute; reflexivity|]). split.
  - intros m [<-|[<-|[]]]; eexists; (split; [reflexivity|]); (split; [apply mem_In; vm_compute; reflexivity|]); [discriminate|].
    intros _. exists "path". split; reflexivity.
  - intros m [<-|[<-|[<-|[<-|[]]]]]; discriminate.
Qed.

(** A transform written as a string that is not an expression is accepted, and does nothing *)
Theorem C59_ignored_transform_refuted : exists ms,
  List.length (values_of "transform" ms) = 1
  /\ snd (container_attrs no_path no_path no_path false ms []) = []
  /\ c_transforms (fst (fst (container_attrs no_path no_path no_path false ms []))) = [].
Proof. exists [item "transform" (SValue (ELit "not an expression"))]. repeat split; vm_compute; reflexivity. Qed.
Print Assumptions C59_ignored_transform_refuted.
