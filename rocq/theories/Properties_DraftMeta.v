(** Property theorems C69 for the ready-made settings, with their transforms.

    [found], [rewritten], [holding_schemas]: DraftMeta.v; [preset], [configured]: Properties_Settings.v; [says]: Metadata.v;
    [names_property]: Properties_Default.v; [without_transforms]: Properties_Drafts.v *)
From Coq Require Import String Ascii List ZArith Bool Lia.
From Verif Require Import ValidationAttrs ValidationProofs Json JsonFacts Utf8 Encoding EncodingProofs SchemaApi Transform Validate ValidateFacts ValidateKw Pointer
  PointerProofs Private PrivateProps ShapeFacts PrivateFlatten Generate GenerateDoc SerValue Types TypesShape Serde SerdeFacts Derivation Properties_Root SoundBase SoundStruct SoundTypes SoundAdt
  TypeId Sound Required RequiredDerive RequiredSerde RequiredVariants Settings Drafts Properties_Drafts Properties_Settings Defaults Metadata DraftMeta
  Titles Properties_Sound Properties_Required Properties_Default Properties_Metadata Properties_RequiredOnce Properties_Titles.
Import ListNotations.
Open Scope string_scope.
Open Scope list_scope.

(** ** The transforms *)
Lemma preset_carries St p (s : settings St) st : configured p s -> carries (transformed s st).
Proof.
  intros HC. assert (HS : s_transforms s = s_transforms (settings_of p)) by (clear st; induction HC; auto).
  unfold transformed. rewrite HS. clear HS.
  pose proof (gentle_carries _ (gentle_post _ mild_uneval)) as U. pose proof (gentle_carries _ (gentle_post _ mild_ref)) as R.
  pose proof (gentle_carries _ (gentle_post _ mild_prefix)) as P. pose proof (gentle_carries _ (gentle_post _ mild_const)) as C.
  pose proof (gentle_carries _ (gentle_post _ mild_example)) as E. pose proof (gentle_carries _ (gentle_bool true)) as B.
  pose proof (gentle_carries _ (gentle_nullable true true)) as N.
  destruct p; cbn [settings_of draft07 draft2019_09 draft2020_12 openapi3 s_transforms fold_left pure fst].
  - exact (carries_comp _ _ (carries_comp _ _ U R) P).
  - exact P.
  - intros q d sub H1 H2. now exists sub.
  - exact (carries_comp _ _ (carries_comp _ _ (carries_comp _ _ (carries_comp _ _ (carries_comp _ _ (carries_comp _ _ U B) N) R) E) C) P).
Qed.

(** ** Theorems *)
(** A schema in the document without transforms, at a place that is reached through properties, definitions and alternatives,
    and the schema at the same place in the document of a ready-made setting have the same keys with the same values, except
    for the keywords that the transforms are about and those with schemas in them. *)
Theorem C69_presets : forall X St (items : nat -> item X) p (s : settings St) st fuel t doc g',
  configured p s -> root_schema_for (info items) (json_schema (info items) fuel) t (new_gen s st) = Some (doc, g') ->
  exists doc0 g0, root_schema_for (info items) (json_schema (info items) fuel) t (new_gen (without_transforms s) tt) = Some (doc0, g0)
    /\ forall place sub, found place doc0 sub -> is_obj sub = true ->
         exists sub', found place doc sub' /\ forall k, ~ In k (rewritten ++ holding_schemas) -> s_get k sub' = s_get k sub.
Proof.
  intros X St items p s st fuel t doc g' HC HR. pose proof (C54_transforms_last X St items (new_gen s st) fuel t) as H. rewrite HR in H.
  change (plain_gen (new_gen s st)) with (new_gen (Ty := rty) (without_transforms s) tt) in H.
  destruct (root_schema_for _ _ t (new_gen (without_transforms s) tt)) as [[doc0 g0]|]; [|discriminate].
  destruct H as (g1 & [= -> _] & _). exists doc0, g0. split; [reflexivity|]. intros place sub HF HO.
  destruct (preset_carries St p s st HC place doc0 sub HF HO) as (sub' & H1 & _ & H2). now exists sub'.
Qed.
Print Assumptions C69_presets.

(** The first part of the path to the definitions *)
Definition definitions_key (p : preset) : string := match p with Draft07 => "definitions" | OpenApi3 => "components" | _ => "$defs" end.
Lemma preset_plain St p (s : settings St) : configured p s -> plain_settings (definitions_key p) (s_contract s) (without_transforms s).
Proof.
  intros HC. assert (HP : s_path s = s_path (settings_of (St := St) p)) by (induction HC; auto).
  constructor; cbn [without_transforms s_contract s_transforms s_path]; rewrite ?HP; try reflexivity; clear HC HP.
  - destruct p; eexists; (split; [reflexivity|discriminate]).
  - destruct p; split; reflexivity.
  - destruct p; eexists; reflexivity.
  - destruct p; (split; [|split; discriminate]); intros H;
      match type of H with In ?a _ => assert (HX : existsb (String.eqb a) used = true); [|vm_compute in HX; discriminate] end;
      apply existsb_exists; (eexists; split; [exact H|apply String.eqb_refl]).
Qed.

Lemma get_obj k s x : s_get k s = Some x -> is_obj s = true.
Proof. destruct s; try discriminate; reflexivity. Qed.
Theorem C69_type_presets_partial : forall St (items : nat -> item rval) p (s : settings St) st fuel i cs ts doc k x,
  configured p s -> root_document items s st fuel (TAdt i cs ts) doc -> says (d_meta (it_decl (items i) cs ts)) k x ->
  ~ In k (definitions_key p :: "$schema" :: rewritten ++ holding_schemas) -> s_get k doc = Some x.
Proof.
  intros St items p s st fuel i cs ts doc k x HC [g' HR] HS HN. cbn [In] in HN.
  destruct (C69_presets _ _ _ _ _ _ _ _ _ _ HC HR) as (doc0 & g0 & H0 & HK).
  assert (HX : s_get k doc0 = Some x).
  { eapply (C69_type_partial _ items _ _ (without_transforms s)); [exact (preset_plain _ _ _ HC)|eexists; exact H0|exact HS| |]; intros ->; apply HN; auto. }
  destruct (HK [] doc0 (FHere _) (get_obj _ _ _ HX)) as (sub & HF & H). inversion HF; subst. rewrite H by tauto. exact HX.
Qed.
Print Assumptions C69_type_presets_partial.

(** A property, and an alternative, of the document without transforms *)
Lemma preset_property (doc0 doc : json) n sub :
  (forall place sub, found place doc0 sub -> is_obj sub = true ->
     exists sub', found place doc sub' /\ forall k, ~ In k (rewritten ++ holding_schemas) -> s_get k sub' = s_get k sub) ->
  property_is doc0 n sub -> is_obj sub = true ->
  exists sub', property_is doc n sub' /\ forall k, ~ In k (rewritten ++ holding_schemas) -> s_get k sub' = s_get k sub.
Proof.
  intros HK (m & ps & -> & A & B) HO. destruct (HK [Entry "properties" n] sub) as (sub' & HF & H); [eapply FEntry; eauto; [now left|constructor]|exact HO|].
  inversion HF as [|? ? ? m' ps' sub2 ? _ A' B' HF2|]; subst. inversion HF2; subst. exists sub'. split; [|exact H]. now exists m', ps'.
Qed.
Lemma preset_alternative (doc0 doc : json) l e :
  (forall place sub, found place doc0 sub -> is_obj sub = true ->
     exists sub', found place doc sub' /\ forall k, ~ In k (rewritten ++ holding_schemas) -> s_get k sub' = s_get k sub) ->
  RequiredVariants.alternatives doc0 l -> In e l -> is_obj e = true ->
  exists l' e', RequiredVariants.alternatives doc l' /\ In e' l' /\ forall k, ~ In k (rewritten ++ holding_schemas) -> s_get k e' = s_get k e.
Proof.
  intros HK (m & -> & HA) He HO. apply In_nth_error in He as [n He].
  assert (HF : exists key, In key ["oneOf"; "anyOf"] /\ mget key m = Some (JArr l)) by (destruct HA as [HA|HA]; eexists; (split; [|exact HA]); cbn; auto).
  destruct HF as (key & HI & HA'). destruct (HK [Nth key n] e) as (e' & HF & H); [eapply FNth; eauto; constructor|exact HO|].
  inversion HF as [| |? ? ? m' l' sub2 ? _ A' B' HF2]; subst. inversion HF2; subst. exists l', e'. split; [|split; [eapply nth_error_In; eauto|exact H]].
  exists m'. split; [reflexivity|]. destruct HI as [<-|[<-|[]]]; auto.
Qed.

Theorem C69_field_presets_partial : forall St (items : nat -> item rval) p (s : settings St) st fuel t doc def f,
  configured p s -> plain_structs items (s_contract s) t -> root_document items s st fuel t doc -> names_property items (s_contract s) t def f ->
  (exists k x, says (f_meta f) k x /\ ~ In k (["items"; "default"; "readOnly"; "writeOnly"] ++ validation_keywords)) \/ f_skip_de f = true \/ f_skip_ser f = true ->
  exists sub, property_is doc (key (s_contract s) f) sub
    /\ (forall k x, says (f_meta f) k x -> ~ In k (["items"; "default"; "readOnly"; "writeOnly"] ++ validation_keywords ++ rewritten ++ holding_schemas) -> s_get k sub = Some x)
    /\ (f_skip_de f = true -> s_get "readOnly" sub = Some (JBool true))
    /\ (f_skip_ser f = true -> s_get "writeOnly" sub = Some (JBool true)).
Proof.
  intros St items p s st fuel t doc def f HC HP [g' HR] HF HM.
  destruct (C69_presets _ _ _ _ _ _ _ _ _ _ HC HR) as (doc0 & g0 & H0 & HK).
  destruct (default_property _ items _ _ (without_transforms s) tt fuel t doc0 def f (preset_plain _ _ _ HC) ltac:(eexists; exact H0) HP HF) as (sub & HI).
  destruct (field_carries def f sub) as (H1 & H2 & H3).
  destruct (preset_property _ _ _ _ HK HI) as (sub' & HI' & HX).
  { destruct HM as [(k & x & HS & HN)|[HM|HM]].
    - exact (get_obj _ _ _ (H1 k x HS HN)). - eapply get_obj, H2, HM. - eapply get_obj, H3, HM. }
  exists sub'. split; [exact HI'|]. split; [|split].
  - intros k x HS HN. rewrite HX; [apply H1; [exact HS|]|]; intros N; apply HN.
    + change field_words with (["items"; "default"; "readOnly"; "writeOnly"] ++ validation_keywords) in N. rewrite !in_app_iff in *. tauto.
    + rewrite !in_app_iff in *. tauto.
  - intros H. rewrite HX; [now apply H2|]. intros N. apply (In_existsb "readOnly") in N. vm_compute in N. discriminate.
  - intros H. rewrite HX; [now apply H3|]. intros N. apply (In_existsb "writeOnly") in N. vm_compute in N. discriminate.
Qed.
Print Assumptions C69_field_presets_partial.

Theorem C68_presets_partial : forall St (items : nat -> item rval) text_ok p (s : settings St) st fuel t doc def f d j,
  configured p s -> plain_structs items (s_contract s) t -> root_document items s st fuel t doc ->
  names_property items (s_contract s) t def f -> defaults_to items text_ok def f d ->
  has_default def f -> ~ left_out f d -> value_json items text_ok false (f_ty f) d = Some j ->
  exists sub, property_is doc (key (s_contract s) f) sub /\ s_get "default" sub = Some j.
Proof.
  intros St items text_ok p s st fuel t doc def f d j HC HP [g' HR] HF HD HH HL HJ.
  destruct (C69_presets _ _ _ _ _ _ _ _ _ _ HC HR) as (doc0 & g0 & H0 & HK).
  destruct (C68_default_partial _ items text_ok _ _ (without_transforms s) tt fuel t doc0 def f d j (preset_plain _ _ _ HC) HP ltac:(eexists; exact H0) HF HD HH HL HJ) as (sub & HI & HG).
  destruct (preset_property _ _ _ _ HK HI (get_obj _ _ _ HG)) as (sub' & HI' & HX). exists sub'. split; [exact HI'|]. rewrite HX; [exact HG|].
  intros N. apply (In_existsb "default") in N. vm_compute in N. discriminate.
Qed.
Print Assumptions C68_presets_partial.

Theorem C69_variant_presets_partial : forall St (items : nat -> item rval) p (s : settings St) st fuel i cs ts tg vs doc v,
  configured p s -> root_document items s st fuel (TAdt i cs ts) doc -> d_data (it_decl (items i) cs ts) = DEnum tg vs ->
  (forall k x, In (k, x) (d_meta (it_decl (items i) cs ts)) -> k <> "oneOf" /\ k <> "anyOf") ->
  In v vs -> v_takes_part (s_contract s) v -> v_meta v <> [] ->
  exists l e, RequiredVariants.alternatives doc l /\ In e l
    /\ forall k x, says (v_meta v) k x -> ~ In k (rewritten ++ holding_schemas) -> s_get k e = Some x.
Proof.
  intros St items p s st fuel i cs ts tg vs doc v HC [g' HR] HD HM Hv HT HV.
  destruct (C69_presets _ _ _ _ _ _ _ _ _ _ HC HR) as (doc0 & g0 & H0 & HK).
  destruct (C69_variant_partial _ items _ _ (without_transforms s) tt fuel i cs ts tg vs doc0 v (preset_plain _ _ _ HC) ltac:(eexists; exact H0) HD HM Hv HT HV)
    as (l & e & HA & He & HX).
  assert (HO : is_obj e = true).
  { destruct (exists_last HV) as (l1 & [k x] & HE). apply (get_obj k e x), HX. exists l1, []. split; [exact HE|intros []]. }
  destruct (preset_alternative _ _ _ _ HK HA He HO) as (l' & e' & H1 & H2 & H3). exists l', e'. split; [exact H1|]. split; [exact H2|]. intros k x HS HN. rewrite H3 by exact HN. auto.
Qed.
Print Assumptions C69_variant_presets_partial.

Theorem C70_presets_partial : forall St (items : nat -> item rval) p (s : settings St) st fuel i cs ts tg vs doc v,
  configured p s -> root_document (titled (s_contract s) items) s st fuel (TAdt i cs ts) doc -> d_data (it_decl (items i) cs ts) = DEnum tg vs ->
  (forall k x, In (k, x) (d_meta (it_decl (items i) cs ts)) -> k <> "oneOf" /\ k <> "anyOf") ->
  In v vs -> v_takes_part (s_contract s) v -> tg = Untagged \/ v_untagged v = true -> ~ In "title" (map fst (v_meta v)) ->
  exists l e, RequiredVariants.alternatives doc l /\ In e l
    /\ s_get "title" e = Some (JStr (match s_contract s with Serialize => v_ser v | Deserialize => v_de v end))
    /\ forall k x, says (v_meta v) k x -> ~ In k (rewritten ++ holding_schemas) -> s_get k e = Some x.
Proof.
  intros St items p s st fuel i cs ts tg vs doc v HC [g' HR] HD HM Hv HT HU HN.
  destruct (C69_presets _ _ _ _ _ _ _ _ _ _ HC HR) as (doc0 & g0 & H0 & HK).
  destruct (C70_titles_partial _ items _ _ (without_transforms s) tt fuel i cs ts tg vs doc0 v (preset_plain _ _ _ HC) ltac:(eexists; exact H0) HD HM Hv HT HU)
    as (l & e & HA & He & HTi & HX). specialize (HTi HN).
  destruct (preset_alternative _ _ _ _ HK HA He (get_obj _ _ _ HTi)) as (l' & e' & H1 & H2 & H3). exists l', e'. split; [exact H1|]. split; [exact H2|]. split; [|intros k x HS HN'; rewrite H3 by exact HN'; auto].
  rewrite H3; [exact HTi|]. intros N. apply (In_existsb "title") in N. vm_compute in N. discriminate.
Qed.
Print Assumptions C70_presets_partial.

(** ** What is required *)
Lemma preset_required St (items : nat -> item rval) p (s : settings St) st fuel t doc : configured p s -> root_document items s st fuel t doc ->
  exists doc0, root_document items (without_transforms s) tt fuel t doc0 /\ (is_obj doc0 = true -> s_get "required" doc = s_get "required" doc0).
Proof.
  intros HC [g' HR]. destruct (C69_presets _ _ _ _ _ _ _ _ _ _ HC HR) as (doc0 & g0 & H0 & HK). exists doc0. split; [now exists g0|].
  intros HO. destruct (HK [] doc0 (FHere _) HO) as (sub & HF & H). inversion HF; subst. apply H. intros N. apply (In_existsb "required") in N. vm_compute in N. discriminate.
Qed.
Lemma same_required doc doc0 k : s_get "required" doc = s_get "required" doc0 -> requires doc k <-> requires doc0 k.
Proof.
  assert (HS : forall d, requires d k <-> exists rs, s_get "required" d = Some (JArr rs) /\ In (JStr k) rs).
  { intros d. split; [intros (m & rs & -> & A & B); now exists rs|intros (rs & A & B)]. destruct d as [| | | | |m]; try discriminate A. now exists m, rs. }
  intros E. rewrite !HS, E. reflexivity.
Qed.
Lemma requires_obj St (items : nat -> item rval) (s : settings St) st fuel t doc : root_document items s st fuel t doc -> s_transforms s = [] -> is_obj doc = true.
Proof.
  intros [g' HR] HS. destruct (root_derives (info items) (reach items t) fuel t s st doc g') as (gf & sch & H1 & H2 & H3 & _); auto.
  { apply reach_closed. } { apply reach_refl. } now rewrite H3.
Qed.

(** The keys an input has to have are the same under the ready-made settings, and so serde and the schema still agree on them. *)
Theorem C48_deserialize_presets_partial : forall St (items : nat -> item rval) p (s : settings St) st fuel t doc keys,
  configured p s -> s_contract s = Deserialize -> plain_structs items Deserialize t -> plain_presence items t -> root_document items s st fuel t doc ->
  (forall k, requires doc k -> In k keys) <-> complete items keys t.
Proof.
  intros St items p s st fuel t doc keys HC HD HP HA HR. destruct (preset_required _ _ _ _ _ _ _ _ HC HR) as (doc0 & H0 & HE).
  specialize (HE (requires_obj _ _ _ _ _ _ _ H0 eq_refl)). pose proof (preset_plain _ _ _ HC) as HS. rewrite HD in HS.
  rewrite <- (C48_deserialize_required_partial _ items _ (without_transforms s) tt fuel t doc0 keys HS HP HA H0).
  split; intros H k HK; apply H; now apply (same_required _ _ k HE).
Qed.
Print Assumptions C48_deserialize_presets_partial.

Theorem C48_serialize_presets_partial : forall St (items : nat -> item rval) text_ok p (s : settings St) st fuel t doc k,
  configured p s -> s_contract s = Serialize -> plain_structs items Serialize t -> plain_skips items t -> skips_possible items t ->
  root_document items s st fuel t doc -> (exists v j, value_json items text_ok true t v = Some j) ->
  (requires doc k <-> has_key items Serialize t k /\ forall v j, value_json items text_ok true t v = Some j -> exists o x, j = JObj o /\ mget k o = Some x).
Proof.
  intros St items text_ok p s st fuel t doc k HC HD HP HA HX HR HV. destruct (preset_required _ _ _ _ _ _ _ _ HC HR) as (doc0 & H0 & HE).
  specialize (HE (requires_obj _ _ _ _ _ _ _ H0 eq_refl)). pose proof (preset_plain _ _ _ HC) as HS. rewrite HD in HS.
  rewrite (same_required _ _ k HE), (C48_serialize_required_partial _ items text_ok _ (without_transforms s) tt fuel t doc0 k HS HP HA HX H0 HV).
  now rewrite (proj1 (C48_properties_partial _ items _ _ (without_transforms s) tt fuel t doc0 k HS HP H0)).
Qed.
Print Assumptions C48_serialize_presets_partial.

Theorem C53_required_once_presets_partial : forall St (items : nat -> item rval) p (s : settings St) st fuel t doc,
  configured p s -> plain_structs items (s_contract s) t -> all_distinct items (s_contract s) t -> root_document items s st fuel t doc -> required_once doc.
Proof.
  intros St items p s st fuel t doc HC HP HA HR. destruct (preset_required _ _ _ _ _ _ _ _ HC HR) as (doc0 & H0 & HE).
  specialize (HE (requires_obj _ _ _ _ _ _ _ H0 eq_refl)). unfold required_once. rewrite HE.
  exact (C53_required_once_partial _ items _ _ (without_transforms s) tt fuel t doc0 (preset_plain _ _ _ HC) HP HA H0).
Qed.
Print Assumptions C53_required_once_presets_partial.

(** ** Example *)
(** /// A value
    #[schemars(extend("x-unit" = "s"))] enum T { /// Off
                                                 Off, Timed { /// How long
                                                              t: u8 } } *)
Definition timed_field : field rval := Field "t" "t" (TInt U8) false false None false None false no_vattrs [("description", JStr "How long")].
Definition off_variant : variant rval := Variant "Off" "Off" false false false Unit [("description", JStr "Off")].
Definition timed_prog := one_item (Decl false (DEnum External [off_variant; Variant "Timed" "Timed" false false false (Struct [timed_field]) []])
  [("description", JStr "A value"); ("x-unit", JStr "s")]).
(** /// Point
    struct T { /// How long
               t: u8 } *)
Definition point_prog := one_item (Decl false (DStruct false (Struct [timed_field])) [("description", JStr "Point")]).
Definition preset_doc (p : preset) (items : nat -> item rval) : option json :=
  option_map fst (root_schema_for (info items) (json_schema (info items) 20) (TAdt 0 [] []) (new_gen (settings_of (St := unit) p) tt)).
Lemma preset_doc_root p items doc : preset_doc p items = Some doc -> root_document items (settings_of p) tt 20 (TAdt 0 [] []) doc.
Proof.
  unfold preset_doc. destruct (root_schema_for _ _ _ _) as [[d g]|] eqn:E; [|discriminate]. intros [= <-]. exists g. exact E.
Qed.
Example C69_presets_example : forall p, configured p (settings_of (St := unit) p)
  /\ (exists doc, preset_doc p timed_prog = Some doc /\ s_get "description" doc = Some (JStr "A value") /\ s_get "x-unit" doc = Some (JStr "s")
       /\ exists sub, found [Nth "oneOf" 1; Entry "properties" "Timed"; Entry "properties" "t"] doc sub /\ s_get "description" sub = Some (JStr "How long"))
  /\ says [("description", JStr "A value"); ("x-unit", JStr "s")] "x-unit" (JStr "s")
  /\ ~ In "x-unit" (definitions_key p :: "$schema" :: rewritten ++ holding_schemas)
  /\ ~ In "description" (["items"; "default"; "readOnly"; "writeOnly"] ++ validation_keywords ++ rewritten ++ holding_schemas)
  /\ plain_structs point_prog Deserialize (TAdt 0 [] []) /\ names_property point_prog Deserialize (TAdt 0 [] []) false timed_field
  /\ exists doc, preset_doc p point_prog = Some doc.
Proof.
  intros p. split; [constructor|]. split; [|split; [|split; [|split; [|split; [|split]]]]].
  - destruct p; (eexists; split; [vm_compute; reflexivity|]; split; [reflexivity|]; split; [reflexivity|];
      eexists; split; [eapply FNth; [now left|reflexivity|reflexivity|]; eapply FEntry; [now left|reflexivity|reflexivity|]; eapply FEntry; [now left|reflexivity|reflexivity|constructor]|reflexivity]).
  - exists [("description", JStr "A value")], []. split; [reflexivity|]. intros [].
  - intros H. apply (In_existsb "x-unit") in H. destruct p; vm_compute in H; discriminate.
  - intros H. apply (In_existsb "description") in H. vm_compute in H. discriminate.
  - constructor; [exists 0, [], []; eexists _, _; split; reflexivity|]. intros i cs ts def fs HW HD.
    assert (HU : forall u, within_flat point_prog Deserialize (TAdt 0 [] []) u -> u = TAdt 0 [] []).
    { induction 1 as [|i' cs' ts' def' fs' f HW' IH HD' Hf HT HF]; [reflexivity|]. injection IH as -> -> ->. cbn in HD'. injection HD' as <- <-.
      destruct Hf as [<-|[]]. discriminate HF. }
    apply HU in HW. injection HW as -> -> ->. cbn in HD. injection HD as <- <-. constructor.
    + intros k x [[= <- <-]|[]]. split; intros H; apply (In_existsb "description") in H; vm_compute in H; discriminate.
    + intros f [<-|[]] _ HF. discriminate HF.
  - exists 0, [], [], [], []. split; [reflexivity|]. split; [reflexivity|]. split; [reflexivity|]. split; [reflexivity|]. intros g [].
  - destruct p; eexists; vm_compute; reflexivity.
Qed.
(** struct T { #[serde(default)] r: u8 }; #[serde(untagged)] enum T { A(u8), /// Text
                                                                     B(String) } with titles *)
Definition zero_field : field rval := Field "r" "r" (TInt U8) false false None true (Some (JNum (NInt 0))) false no_vattrs [].
Definition zero_prog := one_item (Decl false (DStruct false (Struct [zero_field])) []).
Definition text_variant : variant rval := Variant "B" "B" false false false (Newtype (fld "0" TStr)) [("description", JStr "Text")].
Definition either_prog := one_item (Decl false (DEnum Untagged [Variant "A" "A" false false false (Newtype (fld "0" (TInt U8))) []; text_variant]) []).
Example C68_presets_example : forall p, names_property zero_prog Deserialize (TAdt 0 [] []) false zero_field
  /\ defaults_to zero_prog all_texts false zero_field (RInt 0) /\ has_default false zero_field /\ ~ left_out zero_field (RInt 0)
  /\ exists doc sub, preset_doc p zero_prog = Some doc /\ found [Entry "properties" "r"] doc sub /\ s_get "default" sub = Some (JNum (NInt 0)).
Proof.
  intros p. split; [exists 0, [], [], [], []; repeat split; intros g []|]. split; [reflexivity|]. split; [split; [now left|reflexivity]|].
  split; [intros (q & HQ & _); discriminate HQ|].
  destruct p; (eexists _, _; split; [vm_compute; reflexivity|]; split; [eapply FEntry; [now left|reflexivity|reflexivity|constructor]|reflexivity]).
Qed.
Example C70_presets_example : forall p, v_takes_part Deserialize text_variant /\ ~ In "title" (map fst (v_meta text_variant))
  /\ exists doc e, preset_doc p (titled Deserialize either_prog) = Some doc /\ found [Nth "anyOf" 1] doc e
       /\ s_get "title" e = Some (JStr "B") /\ s_get "description" e = Some (JStr "Text").
Proof.
  intros p. split; [reflexivity|]. split; [intros [H|[]]; discriminate H|].
  destruct p; (eexists _, _; split; [vm_compute; reflexivity|]; split; [eapply FNth; [right; now left|reflexivity|reflexivity|constructor]|split; reflexivity]).
Qed.
(** The structs of Properties_Required.v and Properties_Default.v *)
Definition required_list (p : preset) (serialize : bool) (items : nat -> item rval) (t : rty) : option json :=
  let s := settings_of (St := unit) p in
  match root_schema_for (info items) (json_schema (info items) 20) t (new_gen (if serialize then for_serialize s else s) tt) with
  | Some (doc, _) => s_get "required" doc
  | None => None
  end.
Example C48_presets_example : forall p, configured p (for_serialize (settings_of (St := unit) p))
  /\ plain_structs conf_prog Deserialize conf /\ plain_presence conf_prog conf
  /\ plain_structs conf_prog Serialize conf /\ plain_skips conf_prog conf /\ skips_possible conf_prog conf
  /\ required_list p false conf_prog conf = list_of conf_de /\ required_list p true conf_prog conf = list_of conf_ser
  /\ plain_structs opt_prog Deserialize opts /\ all_distinct opt_prog Deserialize opts /\ required_list p false opt_prog opts = Some (JArr [JStr "x"]).
Proof.
  intros p. split; [apply CSerialize, CPreset|]. split; [apply conf_plain|]. split; [apply conf_presence|]. split; [apply conf_plain|].
  split; [apply (proj1 conf_skips)|]. split; [apply (proj2 conf_skips)|]. split; [destruct p; vm_compute; reflexivity|]. split; [destruct p; vm_compute; reflexivity|].
  split; [apply opt_plain|]. split; [apply opt_distinct|]. destruct p; vm_compute; reflexivity.
Qed.
