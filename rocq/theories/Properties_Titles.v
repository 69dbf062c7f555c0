(** Property theorems C70: with the setting [untagged_enum_variant_titles], the alternatives for variants without
    a tag have a title, and the documents mean the same.

    [titled]: the declarations as the derived code reads them if the setting is on (Titles.v). *)
From Coq Require Import String Ascii List ZArith Bool Lia.
From Verif Require Import ValidationAttrs ValidationProofs Json JsonFacts Utf8 Encoding EncodingProofs SchemaApi Transform Validate ValidateFacts ValidateKw Pointer
  PointerProofs Private PrivateProps ShapeFacts PrivateFlatten Generate GenerateDoc SerValue Types TypesShape Serde SerdeFacts Derivation Properties_Root SoundBase SoundStruct SoundTypes SoundAdt
  TypeId Sound Required RequiredDerive RequiredSerde RequiredVariants Metadata ValidateRefs Properties_Types Properties_Sound Properties_Required Properties_Contract
  Reads Properties_Reads Properties_Enforce Accepts Properties_Accepts Properties_Default Properties_Metadata Titles TitlesReads.
Import ListNotations.
Open Scope string_scope.
Open Scope list_scope.

(** The title of a variant without a tag is its name under the contract, unless it has a title of its own. *)
Theorem C70_titles_partial : forall St (items : nat -> item rval) tok c (s : settings St) st fuel i cs ts tg vs doc v,
  plain_settings tok c s -> root_document (titled c items) s st fuel (TAdt i cs ts) doc -> d_data (it_decl (items i) cs ts) = DEnum tg vs ->
  (forall k x, In (k, x) (d_meta (it_decl (items i) cs ts)) -> k <> "oneOf" /\ k <> "anyOf") ->
  In v vs -> v_takes_part c v -> tg = Untagged \/ v_untagged v = true ->
  exists l e, RequiredVariants.alternatives doc l /\ In e l
    /\ (~ In "title" (map fst (v_meta v)) -> s_get "title" e = Some (JStr (match c with Serialize => v_ser v | Deserialize => v_de v end)))
    /\ forall k x, says (v_meta v) k x -> s_get k e = Some x.
Proof.
  intros St items tok c s st fuel i cs ts tg vs doc v HS HR HD HM Hv HT HU.
  assert (HW : without_tag tg v = true) by (destruct HU as [->|HU]; [reflexivity|]; unfold without_tag; rewrite HU; now destruct tg).
  assert (HE : v_meta (titled_variant c tg v) = ("title", JStr (v_name c v)) :: v_meta v) by (unfold titled_variant; now rewrite HW).
  destruct (C69_variant_partial St (titled c items) tok c s st fuel i cs ts tg (map (titled_variant c tg) vs) doc (titled_variant c tg v) HS HR) as (l & e & HA & He & HK).
  - now apply titled_enum.
  - exact HM.
  - now apply in_map.
  - unfold v_takes_part in *. destruct (titled_same c tg v) as (_ & _ & V3 & V4 & _). destruct c; congruence.
  - rewrite HE. discriminate.
  - rewrite HE in HK. exists l, e. split; [exact HA|]. split; [exact He|]. split.
    + intros HN. rewrite (HK "title" (JStr (v_name c v))); [unfold v_name, name_for; now destruct c|]. exists [], (v_meta v). now split.
    + intros k x (l1 & l2 & EQ & HN). apply HK. exists (("title", JStr (v_name c v)) :: l1), l2. rewrite EQ. now split.
Qed.
Print Assumptions C70_titles_partial.

(** The same for the enums in definitions *)
Theorem C70_definition_partial : forall St (items : nat -> item rval) c (s : settings St) st fuel t doc g' n d,
  s_contract s = c -> s_transforms s = [] -> own_ids items t ->
  root_schema_for (info (titled c items)) (json_schema (info (titled c items)) fuel) t (new_gen s st) = Some (doc, g') -> mget n (g_defs g') = Some d ->
  exists u, reach items t u /\ named_after items n u
    /\ forall i cs ts tg vs v, unwrap u = TAdt i cs ts -> d_data (it_decl (items i) cs ts) = DEnum tg vs ->
         (forall k x, In (k, x) (d_meta (it_decl (items i) cs ts)) -> k <> "oneOf" /\ k <> "anyOf") ->
         In v vs -> v_takes_part c v -> tg = Untagged \/ v_untagged v = true ->
         exists l e, RequiredVariants.alternatives d l /\ In e l
           /\ (~ In "title" (map fst (v_meta v)) -> s_get "title" e = Some (JStr (match c with Serialize => v_ser v | Deserialize => v_de v end)))
           /\ forall k x, says (v_meta v) k x -> s_get k e = Some x.
Proof.
  intros St items c s st fuel t doc g' n d HC HS HId HR HN.
  assert (HI' : own_ids (titled c items) t).
  { intros u u' H1 H2 H3 H4. rewrite titled_inline in H3. rewrite !titled_id in H4. apply titled_reach in H1, H2. now apply HId. }
  destruct (C69_definition_partial St (titled c items) c s st fuel t doc g' n d HC HS HI' HR HN) as (u & Hu & [HU1 HU2] & HA).
  rewrite titled_inline in HU1. rewrite titled_name in HU2. exists u. split; [now apply titled_reach in Hu|]. split; [now split|].
  intros i cs ts tg vs v HX HD HM Hv HT HU. destruct (HA i cs ts HX) as (_ & HV & _).
  assert (HW : without_tag tg v = true) by (destruct HU as [->|HU]; [reflexivity|]; unfold without_tag; rewrite HU; now destruct tg).
  assert (HE : v_meta (titled_variant c tg v) = ("title", JStr (v_name c v)) :: v_meta v) by (unfold titled_variant; now rewrite HW).
  destruct (HV tg (map (titled_variant c tg) vs) (titled_variant c tg v)) as (l & e & HL & He & HK).
  - now apply titled_enum.
  - exact HM.
  - now apply in_map.
  - unfold v_takes_part in *. destruct (titled_same c tg v) as (_ & _ & V3 & V4 & _). destruct c; congruence.
  - rewrite HE. discriminate.
  - rewrite HE in HK. exists l, e. split; [exact HL|]. split; [exact He|]. split.
    + intros HT'. rewrite (HK "title" (JStr (v_name c v))); [unfold v_name, name_for; now destruct c|]. exists [], (v_meta v). now split.
    + intros k x (l1 & l2 & EQ & HNk). apply HK. exists (("title", JStr (v_name c v)) :: l1), l2. rewrite EQ. now split.
Qed.
Print Assumptions C70_definition_partial.

(** Values of a supported type validate against the document with titles. *)
Theorem C70_values_validate_partial : forall St (items : nat -> item rval) text_ok tok c (s : settings St) st fuel t doc E v j,
  plain_settings tok c s -> supported items tok c t -> root_document (titled c items) s st fuel t doc -> validator text_ok (s_path s) doc E ->
  value_json items text_ok true t v = Some j -> valid D2020 E doc j = true.
Proof.
  intros St items text_ok tok c s st fuel t doc E v j HS HU HR HV HJ. destruct (ps_fresh _ _ _ HS) as (_ & HT & _).
  apply (values_validate St (titled c items) text_ok tok c s st fuel t doc E v j HS); auto; [|now rewrite titled_value].
  destruct HU as [U1 U2 U3 U4]. split.
  - intros u i cs ts Hu HX. apply titled_wf_decl; [exact HT|]. apply (U1 u i cs ts); [now apply titled_reach in Hu|exact HX].
  - intros u Hu. rewrite titled_inline, titled_name. apply U2. now apply titled_reach in Hu.
  - intros u u' Hu Hu'. rewrite titled_inline, !titled_id. apply U3; eapply titled_reach; eauto.
  - intros u Hu. apply U4. now apply titled_reach in Hu.
Qed.
Print Assumptions C70_values_validate_partial.

(** Under the deserialize contract, the documents with and without titles accept the same JSON. *)
Theorem C70_same_json_accepted_partial :
  forall St St' (items : nat -> item rval) text_ok tok sets (s : settings St) (s' : settings St') st st' fuel fuel' t doc doc' E E' j,
  plain_settings tok Deserialize s -> plain_settings tok Deserialize s' -> readable items tok t -> acceptable items tok sets t ->
  root_document items s st fuel t doc -> root_document (titled Deserialize items) s' st' fuel' t doc' ->
  strict_validator text_ok (s_path s) doc E -> fair_validator text_ok (s_path s) doc E ->
  strict_validator text_ok (s_path s') doc' E' -> fair_validator text_ok (s_path s') doc' E' ->
  instance j -> input sets j -> valid D2020 E doc j = valid D2020 E' doc' j.
Proof.
  intros St St' items text_ok tok sets s s' st st' fuel fuel' t doc doc' E E' j HS HS' HU HA HR HR' V1 V2 V3 V4 HI HJ.
  destruct (ps_fresh _ _ _ HS) as (_ & HT & _). apply eq_true_iff_eq.
  rewrite (C65_exactly_what_serde_reads_partial St items text_ok tok sets s st fuel t doc E j) by assumption.
  rewrite (C65_exactly_what_serde_reads_partial St' (titled Deserialize items) text_ok tok sets s' st' fuel' t doc' E' j); try assumption.
  - symmetry. apply titled_reads.
  - destruct HU as [U1 U2 U3 U4]. split.
    + intros u Hu. apply titled_readable_type; [exact HT|]. apply U1. now apply titled_reach in Hu.
    + intros u Hu. rewrite titled_inline, titled_name. apply U2. now apply titled_reach in Hu.
    + intros u u' Hu Hu'. rewrite titled_inline, !titled_id. apply U3; eapply titled_reach; eauto.
    + intros u Hu. apply titled_grounded, U4. now apply titled_reach in Hu.
  - destruct HA as [U1 U2 U3 U4]. split.
    + intros u Hu. apply titled_accepts_type; [exact HT|]. apply U1. now apply titled_reach in Hu.
    + intros u Hu. rewrite titled_inline, titled_name. apply U2. now apply titled_reach in Hu.
    + intros u u' Hu Hu'. rewrite titled_inline, !titled_id. apply U3; eapply titled_reach; eauto.
    + intros u Hu. apply titled_grounded, U4. now apply titled_reach in Hu.
Qed.
Print Assumptions C70_same_json_accepted_partial.

(** ** Examples *)
(** #[serde(untagged)] enum T { Id(u32), #[serde(rename(serialize = "By name"))] Name(String), #[schemars(title = "Address")] At { host: String } } *)
Definition ref_variants : list (variant rval) :=
  [Variant "Id" "Id" false false false (Newtype (fld "0" (TInt U32))) [];
   Variant "By name" "Name" false false false (Newtype (fld "0" TStr)) [];
   Variant "At" "At" false false false (Struct [fld "host" TStr]) [("title", JStr "Address")]].
Definition ref_prog : nat -> item rval := one_item (Decl false (DEnum Untagged ref_variants) []).
Definition ref_types : list rty := [TAdt 0 [] []; TUnit; TInt U32; TStr].
Lemma ref_supported : supported ref_prog "$defs" Serialize (TAdt 0 [] []).
Proof.
  assert (HL : forall u, reach ref_prog (TAdt 0 [] []) u -> In u ref_types).
  { intros u. apply reach_list; [now left|]. intros x w HX. unfold ref_types in *. cbn [In] in HX.
    repeat (destruct HX as [<-|HX]; [cbn; intuition (subst; auto 20)|]). destruct HX. }
  constructor.
  - intros u i cs ts HR HU. apply HL in HR. unfold ref_types in HR. cbn [In] in HR.
    repeat (destruct HR as [<-|HR]; [try discriminate HU|]); [|destruct HR]. injection HU as <- <- <-.
    constructor; [apply ex_no_meta|]. cbn [ref_prog one_item it_decl d_data d_deny wf_data]. constructor.
    + discriminate.
    + intros v _ HX. discriminate HX.
    + intros v Hv _. cbn in Hv. destruct Hv as [<-|[<-|[<-|[]]]]; constructor; cbn [v_meta v_style v_untagged]; try discriminate; try (intros f [= <-]; reflexivity);
        try apply ex_no_meta; try (split; [apply ex_no_meta|reflexivity]).
      * apply title_meta; [discriminate|apply ex_no_meta].
      * split; [|discriminate]. constructor.
        -- intros f [<-|[]]. constructor; auto.
        -- intros f [<-|[]]. apply ex_no_meta.
        -- intros f [<-|[]] _ HF. discriminate HF.
        -- repeat constructor.
        -- repeat constructor.
    + cbn. repeat constructor; cbn; intuition discriminate.
    + discriminate.
  - intros u HR HI. apply HL in HR. unfold ref_types in HR. cbn [In] in HR.
    repeat (destruct HR as [<-|HR]; [first [discriminate HI|split; vm_compute; reflexivity]|]). destruct HR.
  - intros u u' HR HR' HI HE. apply HL in HR. apply HL in HR'. unfold ref_types in HR, HR'. cbn [In] in HR, HR'.
    repeat (destruct HR as [<-|HR]; [first [discriminate HI|clear HI; repeat (destruct HR' as [<-|HR']; [first [reflexivity|discriminate HE]|]); destruct HR']|]). destruct HR.
  - intros u HR. apply HL in HR. unfold ref_types in HR. cbn [In] in HR. repeat (destruct HR as [<-|HR]; [cbn; tauto|]). destruct HR.
Qed.
Example C70_example :
  let doc := doc_of (titled Serialize ref_prog) (TAdt 0 [] []) in
  let E := the_validator (doc_table doc) in
  plain_settings "$defs" Serialize ex_settings /\ supported ref_prog "$defs" Serialize (TAdt 0 [] [])
  /\ root_document (titled Serialize ref_prog) ex_settings tt 20 (TAdt 0 [] []) doc
  /\ validator all_texts (s_path ex_settings) doc E
  /\ (exists j, value_json ref_prog all_texts true (TAdt 0 [] []) (RVariant 2 [Serde.RStr "h"]) = Some j
      /\ j = JObj [("host", JStr "h")] /\ valid D2020 E doc j = true)
  /\ doc = JObj
       [("$schema", JStr "https://json-schema.org/draft/2020-12/schema");
        ("anyOf", JArr
          [JObj [("format", JStr "uint32"); ("minimum", JNum (NInt 0)); ("title", JStr "Id"); ("type", JStr "integer")];
           JObj [("title", JStr "By name"); ("type", JStr "string")];
           JObj [("properties", JObj [("host", JObj [("type", JStr "string")])]); ("required", JArr [JStr "host"]); ("title", JStr "Address"); ("type", JStr "object")]]);
        ("title", JStr "T")]
  /\ valid D2020 E doc (JBool true) = false.
Proof.
  cbv zeta. split; [apply ex_plain|]. split; [apply ref_supported|]. split; [eexists; vm_compute; reflexivity|].
  split; [apply table_validator; vm_compute; reflexivity|]. split; [eexists; split; [vm_compute; reflexivity|split; vm_compute; reflexivity]|].
  split; vm_compute; reflexivity.
Qed.

(** Option<T> of that enum, which is in a definition *)
Example C70_definition_example :
  let r := root_schema_for (info (titled Serialize ref_prog)) (json_schema (info (titled Serialize ref_prog)) 20) (TOption (TAdt 0 [] [])) (new_gen ex_settings tt) in
  own_ids ref_prog (TOption (TAdt 0 [] [])) /\ r <> None /\ reach ref_prog (TOption (TAdt 0 [] [])) (TAdt 0 [] []) /\ named_after ref_prog "T" (TAdt 0 [] [])
  /\ match r with Some (_, g) => g_defs g | None => [] end = [("T", JObj
       [("anyOf", JArr
          [JObj [("format", JStr "uint32"); ("minimum", JNum (NInt 0)); ("title", JStr "Id"); ("type", JStr "integer")];
           JObj [("title", JStr "By name"); ("type", JStr "string")];
           JObj [("properties", JObj [("host", JObj [("type", JStr "string")])]); ("required", JArr [JStr "host"]); ("title", JStr "Address"); ("type", JStr "object")]])])].
Proof.
  cbv zeta. split.
  { apply (reached_ids _ _ (TOption (TAdt 0 [] []) :: ref_types)); [|check_ids].
    intros u. apply reach_list; [now left|]. intros x w HX. unfold ref_types in *. cbn [In] in HX.
    repeat (destruct HX as [<-|HX]; [cbn; intuition (subst; auto 20)|]). destruct HX. }
  split; [vm_compute; discriminate|]. split; [eapply reach_step; [apply reach_refl|now left]|]. split; [split; [reflexivity|now left]|]. vm_compute. reflexivity.
Qed.

(** The program of C62's example: its enum State has the untagged variant Code. *)
Example C70_accepted_example :
  let items := titled Deserialize ex_orders in
  let doc := de_doc ex_orders (TAdt 0 [] []) in
  let doc' := de_doc items (TAdt 0 [] []) in
  let E := checking (doc_table doc) in
  let E' := checking (doc_table doc') in
  let j := an_order 7 (JNum (NInt 3)) 5 JNull in
  let no := an_order 7 (JNum (NInt 0)) 5 JNull in
  plain_settings "$defs" Deserialize de_settings
  /\ readable ex_orders "$defs" (TAdt 0 [] []) /\ acceptable ex_orders "$defs" false (TAdt 0 [] [])
  /\ root_document ex_orders de_settings tt 20 (TAdt 0 [] []) doc /\ root_document items de_settings tt 20 (TAdt 0 [] []) doc'
  /\ strict_validator serde_and_rules "/$defs" doc E /\ fair_validator serde_and_rules "/$defs" doc E
  /\ strict_validator serde_and_rules "/$defs" doc' E' /\ fair_validator serde_and_rules "/$defs" doc' E'
  /\ instance j /\ input false j /\ valid D2020 E doc j = true /\ valid D2020 E' doc' j = true
  /\ instance no /\ input false no /\ valid D2020 E doc no = false /\ valid D2020 E' doc' no = false
  /\ doc <> doc'.
Proof.
  cbv zeta. split; [apply de_plain|]. split; [apply ex_orders_readable|]. split; [apply ex_orders_acceptable|].
  split; [eexists; vm_compute; reflexivity|]. split; [eexists; vm_compute; reflexivity|].
  split; [apply checking_rules; vm_compute; reflexivity|]. split; [apply checking_fair; vm_compute; reflexivity|].
  split; [apply checking_rules; vm_compute; reflexivity|]. split; [apply checking_fair; vm_compute; reflexivity|].
  split; [split; vm_compute; reflexivity|]. split; [split; [|discriminate]; vm_compute; reflexivity|]. split; [vm_compute; reflexivity|]. split; [vm_compute; reflexivity|].
  split; [split; vm_compute; reflexivity|]. split; [split; [|discriminate]; vm_compute; reflexivity|]. split; [vm_compute; reflexivity|]. split; [vm_compute; reflexivity|].
  vm_compute. discriminate.
Qed.
