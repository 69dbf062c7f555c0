(** Property theorems C64: what the ready-made settings and the methods that change settings do to
    the generated documents. *)
From Coq Require Import String Ascii List ZArith Bool Lia.
From Verif Require Import ValidationAttrs Json JsonFacts Utf8 Encoding EncodingProofs Pointer PointerProofs SchemaApi Transform TransformProofs TransformSpec
  TransformNullable Validate ValidateFacts TransformSem Private Generate GenerateDoc GenerateProofs SerValue Types TypesShape Serde Properties_Types TypeId Derivation SoundBase
  SoundTypes SoundAdt Sound Properties_Root Independent Settings Drafts Properties_Sound Properties_Contract Reads ReadsStep ReadsDoc Properties_Reads
  Properties_Drafts.
Import ListNotations.
Open Scope string_scope.
Open Scope list_scope.

(** ** Contracts *)
(** [for_serialize] on any settings without transforms: what serde writes validates.
    Missing: the types that C46 and C47 leave out. *)
Theorem C64_for_serialize_partial : forall St (items : nat -> item rval) text_ok tok c (s : settings St) st fuel t doc E v j,
  plain_settings tok c s -> supported items tok Serialize t -> root_document items (for_serialize s) st fuel t doc ->
  validator text_ok (s_path s) doc E ->
  value_json items text_ok true t v = Some j -> valid D2020 E doc j = true.
Proof.
  intros St items text_ok tok c s st fuel t doc E v j HS. apply (values_validate St items text_ok tok Serialize (for_serialize s)).
  destruct HS. constructor; auto.
Qed.
Print Assumptions C64_for_serialize_partial.

(** [for_deserialize]: what validates is read by serde. Missing: the types that C62 leaves out. *)
Theorem C64_for_deserialize_partial : forall St (items : nat -> item rval) text_ok tok c (s : settings St) st fuel t doc E j,
  plain_settings tok c s -> readable items tok t -> root_document items (for_deserialize s) st fuel t doc ->
  strict_validator text_ok (s_path s) doc E ->
  instance j -> valid D2020 E doc j = true -> reads items text_ok t j.
Proof.
  intros St items text_ok tok c s st fuel t doc E j HS. apply (C62_accepted_json_is_read_partial St items text_ok tok (for_deserialize s)).
  destruct HS. constructor; auto.
Qed.
Print Assumptions C64_for_deserialize_partial.

(** The default settings meet the hypotheses, whatever the contract was before, and a type for which
    the two documents differ *)
Lemma default_plain : plain_settings (St := unit) "$defs" Deserialize draft2020_12.
Proof. apply de_plain. Qed.
Definition ex_renamed : nat -> item rval :=
  one_item (Decl false (DStruct false (Struct [Field "out" "in" TBool false false None false None false no_vattrs []])) []).
Example C64_contract_example :
  let t := TAdt 0 [] [] in
  exists doc doc', root_document ex_renamed (for_serialize draft2020_12) tt 20 t doc
  /\ root_document ex_renamed (for_deserialize (for_serialize draft2020_12)) tt 20 t doc'
  /\ validator all_texts "/$defs" doc (the_validator (doc_table doc))
  /\ strict_validator serde_alone "/$defs" doc' (checking (doc_table doc'))
  /\ valid D2020 (the_validator (doc_table doc)) doc (JObj [("out", JBool true)]) = true
  /\ valid D2020 (the_validator (doc_table doc)) doc (JObj [("in", JBool true)]) = false
  /\ valid D2020 (checking (doc_table doc')) doc' (JObj [("in", JBool true)]) = true
  /\ valid D2020 (checking (doc_table doc')) doc' (JObj [("out", JBool true)]) = false.
Proof.
  do 2 eexists. split; [eexists; vm_compute; reflexivity|]. split; [eexists; vm_compute; reflexivity|].
  split; [apply table_validator; vm_compute; reflexivity|]. split; [apply checking_strict; vm_compute; reflexivity|].
  repeat split; vm_compute; reflexivity.
Qed.

(** ** Transforms *)
(** [with_transform] runs the transform on the document that the settings produce without it. *)
Theorem C64_with_transform : forall X St (items : nat -> item X) (s : settings St) st fuel t T,
  match root_schema_for (info items) (json_schema (info items) fuel) t (new_gen s st),
        root_schema_for (info items) (json_schema (info items) fuel) t (new_gen (with_transform T s) st) with
  | Some (doc, g), Some (doc', g') => doc' = fst (T doc (g_tst g)) /\ g_tst g' = snd (T doc (g_tst g)) /\ g_defs g' = g_defs g
  | None, None => True
  | _, _ => False
  end.
Proof.
  intros X St items s st fuel t T. set (s' := with_transform T s). unfold root_schema_for.
  assert (HA : agree s s') by (split; [reflexivity|split; reflexivity]).
  assert (H : sim s s' st st (new_gen (Ty := rty) s st) (new_gen s' st)) by (constructor; try reflexivity; split; reflexivity).
  set (g := new_gen s st) in *. set (h := new_gen s' st) in *.
  assert (EU : uid_of (info items) g t = uid_of (info items) h t) by (eapply sim_uid; [exact HA|reflexivity|exact H]).
  rewrite EU. set (u := uid_of (info items) h t).
  assert (HS : sim_res s s' st st
     (json_schema_internal (json_schema (info items) fuel) t u (with_roots (u :: g_roots g) g))
     (json_schema_internal (json_schema (info items) fuel) t u (with_roots (u :: g_roots h) h))).
  { apply sim_internal; [|now apply sim_with_roots].
    apply (sim_json_schema s s' st st HA (info items) (info items)); auto. intros w. cbn [info t_body]. apply al_body. }
  unfold sim_res in HS.
  destruct (json_schema_internal _ _ _ (with_roots _ g)) as [[x g1]|], (json_schema_internal _ _ _ (with_roots _ h)) as [[y g2]|]; try contradiction; [|exact I].
  destruct HS as [<- HS]. destruct (si_set _ _ _ _ _ _ HS) as [S1 S2], (si_tst _ _ _ _ _ _ HS) as [T1 T2].
  assert (HO : root_object (info items) t (g_set g1) x = root_object (info items) t (g_set g2) x) by (rewrite S1, S2; reflexivity).
  assert (HPa : s_path (g_set g2) = s_path (g_set g1)) by (rewrite S1, S2; reflexivity).
  rewrite <- HO, HPa, <- (si_defs _ _ _ _ _ _ HS). unfold apply_transforms. rewrite S1, S2, T1, T2. unfold s' at 1. cbn [with_transform s_transforms]. rewrite fold_left_app. cbn [fold_left].
  destruct (fold_left _ _ _) as [d z]. cbn [with_roots with_tst g_tst g_defs]. destruct (T d z) as [d' z']. cbn.
  split; [reflexivity|]. split; [reflexivity|]. symmetry. apply (si_defs _ _ _ _ _ _ HS).
Qed.
Print Assumptions C64_with_transform.

(** ** Meta schemas *)
Inductive preset := Draft07 | Draft2019_09 | Draft2020_12 | OpenApi3.
(** The URIs that identify the dialects *)
Definition dialect (p : preset) : string :=
  match p with
  | Draft07 => "http://json-schema.org/draft-07/schema#"
  | Draft2019_09 => "https://json-schema.org/draft/2019-09/schema"
  | Draft2020_12 => "https://json-schema.org/draft/2020-12/schema"
  | OpenApi3 => "https://spec.openapis.org/oas/3.0/schema/2024-10-18#/definitions/Schema"
  end.
Definition settings_of {St} (p : preset) : settings St :=
  match p with Draft07 => draft07 | Draft2019_09 => draft2019_09 | Draft2020_12 => draft2020_12 | OpenApi3 => openapi3 end.
(** The settings made from a preset with the methods that do not add transforms *)
Inductive configured {St} (p : preset) : settings St -> Prop :=
| CPreset : configured p (settings_of p)
| CSerialize s : configured p s -> configured p (for_serialize s)
| CDeserialize s : configured p s -> configured p (for_deserialize s)
| CInline b s : configured p s -> configured p (with_inline b s).

(** A transform that keeps objects objects and does not change the entry of [k] *)
Definition leaves (k : string) (T : json -> json) : Prop := forall m, exists m', T (JObj m) = JObj m' /\ mget k m' = mget k m.

Lemma leaves_subs k f : shape_of k = Other -> leaves k (transform_subschemas f).
Proof.
  intros HK m. eexists. split; [reflexivity|]. induction m as [|[k' x] m IH]; [reflexivity|]. cbn [map mget fst snd].
  destruct (String.eqb_spec k k') as [->|]; [|exact IH]. now rewrite HK.
Qed.
Lemma leaves_comp k f g : leaves k f -> leaves k g -> leaves k (fun s => g (f s)).
Proof. intros HF HG m. destruct (HF m) as (m1 & -> & H1). destruct (HG m1) as (m2 & -> & H2). exists m2. split; [reflexivity|congruence]. Qed.
Lemma leaves_ext k f g : (forall s, f s = g s) -> leaves k g -> leaves k f.
Proof. intros H HG m. rewrite H. apply HG. Qed.
Lemma leaves_post k here : shape_of k = Other -> leaves k here -> leaves k (TransformProofs.post here).
Proof. intros HS HL. apply (leaves_ext k _ (fun s => here (transform_subschemas (TransformProofs.post here) s))); [intros s; apply TransformProofs.post_unfold|]. apply (leaves_comp k (transform_subschemas (TransformProofs.post here)) here); auto. now apply leaves_subs. Qed.
Ltac get_other := repeat (first [rewrite mget_mset|rewrite mget_mdel]; cbn [String.eqb Ascii.eqb Bool.eqb]); try reflexivity.

Lemma leaves_uneval : leaves "$schema" replace_uneval.
Proof.
  apply (leaves_post "$schema" replace_uneval_here); [reflexivity|]. intros m. unfold replace_uneval_here. destruct (mget "unevaluatedProperties" m); [|eauto].
  set (m1 := mset "additionalProperties" _ _). assert (H1 : mget "$schema" m1 = mget "$schema" m) by (unfold m1; get_other).
  destruct (gather_names (JObj m1)) as [|n l]; [eauto|]. destruct (mget "properties" m1) as [[| | | | |p]|]; try (now exists m1); eexists; (split; [reflexivity|]); rewrite mget_mset; exact H1.
Qed.
Lemma leaves_ref : leaves "$schema" remove_ref_siblings.
Proof.
  apply (leaves_post "$schema" remove_ref_siblings_here); [reflexivity|]. intros m. unfold remove_ref_siblings_here. destruct (Nat.ltb 1 _); [|eauto].
  destruct (mget "$ref" m); [|eauto]. destruct (mget "allOf" _) as [[| | | |l|]|]; eexists; (split; [reflexivity|]); get_other.
Qed.
Lemma leaves_prefix : leaves "$schema" replace_prefix_items.
Proof.
  apply (leaves_post "$schema" replace_prefix_here); [reflexivity|]. intros m. unfold replace_prefix_here. destruct (mget "prefixItems" m); [|eauto].
  destruct (mget "items" _); eexists; (split; [reflexivity|]); get_other.
Qed.
Lemma leaves_const : leaves "$schema" replace_const.
Proof.
  apply (leaves_post "$schema" replace_const_here); [reflexivity|]. intros m. unfold replace_const_here. destruct (mget "const" m); [|eauto].
  eexists; (split; [reflexivity|]); get_other.
Qed.
Lemma leaves_example : leaves "$schema" set_single_example.
Proof.
  apply (leaves_post "$schema" set_single_example_here); [reflexivity|]. intros m. unfold set_single_example_here.
  destruct (mget "examples" m) as [[| | | |[|x l]|]|]; eexists; (split; [reflexivity|]); get_other.
Qed.
Lemma leaves_bool b : leaves "$schema" (replace_bool b).
Proof.
  intros m. rewrite replace_bool_unfold. unfold replace_bool_body.
  destruct (if b then _ else _) as [ap|]; [|now apply leaves_subs].
  destruct (leaves_subs "$schema" (replace_bool b) eq_refl (mdel "additionalProperties" m)) as (m' & -> & H). eexists. split; [reflexivity|]. get_other.
  rewrite H. get_other.
Qed.
Lemma leaves_nullable a b : leaves "$schema" (add_nullable a b).
Proof.
  apply (leaves_ext "$schema" _ (fun s => transform_subschemas (add_nullable a b) (add_nullable_here a b s))); [intros s; apply add_nullable_unfold|]. apply (leaves_comp "$schema" (add_nullable_here a b) (transform_subschemas _)); [|now apply leaves_subs].
  intros m. unfold add_nullable_here. destruct (has_type "null" (JObj m)); [|eauto]. destruct (mget "type" _) as [ty|]; [|eexists; split; [reflexivity|]; get_other].
  destruct (match ty with JArr l => forallb is_null_name l | _ => true end).
  - destruct b; [|destruct a]; eexists; (split; [reflexivity|]); try (destruct a); get_other.
  - destruct a; [|eexists; split; [reflexivity|]; get_other]. destruct ty as [| | | |l|]; try (eexists; split; [reflexivity|]; get_other).
    destruct (filter _ l) as [|x [|y l']]; eexists; (split; [reflexivity|]); get_other.
Qed.

Theorem C64_meta_schema : forall X St (items : nat -> item X) p (s : settings St) st fuel t doc g,
  configured p s -> root_schema_for (info items) (json_schema (info items) fuel) t (new_gen s st) = Some (doc, g) ->
  s_get "$schema" doc = Some (JStr (dialect p)).
Proof.
  intros X St items p s st fuel t doc g HC HR.
  assert (HS : s_meta s = Some (dialect p) /\ s_transforms s = s_transforms (settings_of p) /\ s_path s = s_path (settings_of (St := St) p)).
  { clear HR. induction HC; [destruct p; auto|..]; destruct IHHC as (H1 & H2 & H3); auto. }
  destruct HS as (S1 & S2 & S3).
  pose proof (C54_transforms_last X St items (new_gen s st) fuel t) as H. rewrite HR in H.
  destruct (root_schema_for (info items) (json_schema (info items) fuel) t (plain_gen (new_gen s st))) as [[doc0 g0]|] eqn:E0; [|discriminate].
  destruct H as (g' & [= -> _] & _).
  destruct (C51_root_schema_for rty unit (info items) fuel t (plain_gen (new_gen s st)) doc0 g0) as (sch & o & _ & -> & HO).
  { reflexivity. }
  { cbn [plain_gen g_set without_transforms s_path new_gen]. rewrite S3. destruct p; cbn; intuition discriminate. }
  { unfold run. cbn [run_prog]. now rewrite E0. }
  assert (HD : mget "$schema" o = Some (JStr (dialect p))).
  { rewrite HO; [cbn [plain_gen g_set without_transforms s_meta new_gen]; now rewrite S1|].
    intros a ts HA. cbn [plain_gen g_set without_transforms s_path new_gen] in HA. rewrite S3 in HA. destruct p; injection HA as <- <-; discriminate. }
  clear - HD S2. cbn [new_gen g_set g_tst]. unfold transformed. rewrite S2. clear S2.
  assert (HF : forall l m x, Forall (leaves "$schema") l -> mget "$schema" m = Some (JStr (dialect p)) ->
     s_get "$schema" (fst (fold_left (fun '(d, x) f => f d x) (map pure l) (JObj m, x : St))) = Some (JStr (dialect p))).
  { induction l as [|T l IH]; intros m x HL HM; [exact HM|]. inversion HL as [|? ? HT HL']; subst. cbn [map fold_left]. destruct (HT m) as (m' & E & HM').
    unfold pure at 2. rewrite E. apply IH; [exact HL'|congruence]. }
  destruct p; cbn [settings_of draft07 draft2019_09 draft2020_12 openapi3 s_transforms].
  - apply (HF [replace_uneval; remove_ref_siblings; replace_prefix_items]); [|exact HD].
    repeat constructor; [apply leaves_uneval|apply leaves_ref|apply leaves_prefix].
  - apply (HF [replace_prefix_items]); [|exact HD]. repeat constructor. apply leaves_prefix.
  - apply (HF []); [constructor|exact HD].
  - apply (HF [replace_uneval; replace_bool true; add_nullable true true; remove_ref_siblings; set_single_example; replace_const; replace_prefix_items]); [|exact HD].
    repeat constructor; [apply leaves_uneval|apply leaves_bool|apply leaves_nullable|apply leaves_ref|apply leaves_example|apply leaves_const|apply leaves_prefix].
Qed.
Print Assumptions C64_meta_schema.

(** Documents of two of them *)
Example C64_meta_example :
  exists doc doc',
    option_map fst (root_schema_for (info ex_renamed) (json_schema (info ex_renamed) 20) (TAdt 0 [] []) (new_gen (for_serialize draft07) tt)) = Some doc
  /\ option_map fst (root_schema_for (info ex_renamed) (json_schema (info ex_renamed) 20) (TOption (TAdt 0 [] [])) (new_gen (with_inline true openapi3) tt)) = Some doc'
  /\ s_get "$schema" doc = Some (JStr "http://json-schema.org/draft-07/schema#")
  /\ s_get "$schema" doc' = Some (JStr "https://spec.openapis.org/oas/3.0/schema/2024-10-18#/definitions/Schema").
Proof. do 2 eexists. split; [vm_compute; reflexivity|]. split; [vm_compute; reflexivity|]. split; vm_compute; reflexivity. Qed.
