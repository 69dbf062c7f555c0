(** Property theorems C69: titles, descriptions and the like, and the marks of fields which are only read or
    only written, are in the document generated for the type.

    [says], [carries]: Metadata.v; [alternatives], [property_is]: RequiredVariants.v *)
From Coq Require Import String Ascii List ZArith Bool Lia.
From Verif Require Import ValidationAttrs ValidationProofs Json JsonFacts Utf8 Encoding EncodingProofs SchemaApi Transform Validate ValidateFacts ValidateKw Pointer
  PointerProofs Private PrivateProps ShapeFacts PrivateFlatten Generate GenerateDoc SerValue Types TypesShape Serde SerdeFacts Derivation Properties_Root SoundBase SoundStruct SoundTypes SoundAdt
  TypeId Sound Required RequiredDerive RequiredSerde RequiredVariants Defaults Metadata Properties_Sound Properties_Required Properties_Default.
Import ListNotations.
Open Scope string_scope.
Open Scope list_scope.

(** ** Types *)
(** What is attached to a derived type is in its document, except for a "$schema" if the settings have one
    and for the key under which definitions are put. *)
Theorem C69_type_partial : forall St (items : nat -> item rval) tok c (s : settings St) st fuel i cs ts doc k x,
  plain_settings tok c s -> root_document items s st fuel (TAdt i cs ts) doc ->
  says (d_meta (it_decl (items i) cs ts)) k x -> k <> tok -> k <> "$schema" -> s_get k doc = Some x.
Proof.
  intros St items tok c s st fuel i cs ts doc k x HS [g' HR] HK N1 N2.
  destruct (root_derives (info items) (reach items (TAdt i cs ts)) fuel (TAdt i cs ts) s st doc g') as (gf & sch & H1 & H2 & H3 & _); auto.
  { apply reach_closed. } { apply reach_refl. } { apply (ps_transforms _ _ _ HS). }
  unfold derives_f in H2. rewrite H1 in H2. apply derives_meta in H2. specialize (H2 k x HK (fun H => H)).
  rewrite H3. cbn [s_get]. rewrite (root_object_of (info items) (TAdt i cs ts) s sch (g_defs gf) (s_path s) (ps_path _ _ _ HS) k).
  - assert (HE : mget k (ensure_obj sch) = Some x) by (destruct sch; try discriminate H2; exact H2).
    destruct (String.eqb_spec k "$schema"); [contradiction|]. destruct (String.eqb_spec k "title") as [->|]; [now rewrite HE|exact HE].
  - intros a more HA. destruct (ps_tok _ _ _ HS) as [more' HT]. rewrite HT in HA. injection HA as <- <-. exact N1.
Qed.
Print Assumptions C69_type_partial.

(** ** Definitions *)
(** Each definition carries what is attached to the type it is named after, to the variants of that enum and to the
    fields of that struct ([named_after], [own_ids]: Properties_Default.v). *)
Theorem C69_definition_partial : forall St (items : nat -> item rval) c (s : settings St) st fuel t doc g' n d,
  s_contract s = c -> s_transforms s = [] -> own_ids items t ->
  root_schema_for (info items) (json_schema (info items) fuel) t (new_gen s st) = Some (doc, g') -> mget n (g_defs g') = Some d ->
  exists u, reach items t u /\ named_after items n u
    /\ forall i cs ts, unwrap u = TAdt i cs ts ->
         (forall k x, says (d_meta (it_decl (items i) cs ts)) k x -> s_get k d = Some x)
         /\ (forall tg vs v, d_data (it_decl (items i) cs ts) = DEnum tg vs ->
              (forall k x, In (k, x) (d_meta (it_decl (items i) cs ts)) -> k <> "oneOf" /\ k <> "anyOf") ->
              In v vs -> v_takes_part c v -> v_meta v <> [] ->
              exists l e, alternatives d l /\ In e l /\ forall k x, says (v_meta v) k x -> s_get k e = Some x)
         /\ (forall def f, plain_structs items c (TAdt i cs ts) -> names_property items c (TAdt i cs ts) def f ->
              exists sub, property_is d (key c f) sub
                /\ (forall k x, says (f_meta f) k x -> ~ In k (["items"; "default"; "readOnly"; "writeOnly"] ++ validation_keywords) -> s_get k sub = Some x)
                /\ (f_skip_de f = true -> s_get "readOnly" sub = Some (JBool true))
                /\ (f_skip_ser f = true -> s_get "writeOnly" sub = Some (JBool true))).
Proof.
  intros St items c s st fuel t doc g' n d <- HS HId HR HN.
  destruct (definition_of _ _ _ _ _ _ _ _ _ _ HS HId HR HN) as (u & R & ans & seen & Hu & HNm & HD). exists u. split; [exact Hu|]. split; [exact HNm|].
  intros i cs ts HX. rewrite HX in HD. split; [|split].
  - intros k x HK. exact (derives_meta _ _ _ _ _ _ _ _ _ HD k x HK (fun H => H)).
  - intros tg vs v HDt HM Hv HT HMv. destruct (derives_described _ _ _ _ _ _ _ _ _ _ _ HDt HM HD v Hv HT HMv) as (l & e & HA & He & HV).
    exists l, e. split; [exact HA|]. split; [exact He|]. intros k x HK. exact (HV k x HK (fun H => H)).
  - intros def f HP HF. destruct (definition_property _ _ _ _ _ _ _ _ _ _ HP HF HD) as (sub & H). eexists. split; [exact H|].
    destruct (field_carries def f sub) as (H1 & H2 & H3). split; [exact H1|now split].
Qed.
Print Assumptions C69_definition_partial.

(** ** Fields *)
(** What is attached to a field is in the schema of its property, except where attributes of the field that
    have a meaning of their own set the same key; a field that is never read is marked "readOnly", one that is never written
    "writeOnly". *)
Theorem C69_field_partial : forall St (items : nat -> item rval) tok c (s : settings St) st fuel t doc def f,
  plain_settings tok c s -> plain_structs items c t -> root_document items s st fuel t doc -> names_property items c t def f ->
  exists sub, property_is doc (key c f) sub
    /\ (forall k x, says (f_meta f) k x -> ~ In k (["items"; "default"; "readOnly"; "writeOnly"] ++ validation_keywords) -> s_get k sub = Some x)
    /\ (f_skip_de f = true -> s_get "readOnly" sub = Some (JBool true))
    /\ (f_skip_ser f = true -> s_get "writeOnly" sub = Some (JBool true)).
Proof.
  intros St items tok c s st fuel t doc def f HS HP HR HN.
  destruct (default_property _ _ _ _ _ _ _ _ _ _ _ HS HR HP HN) as (sub & H). eexists. split; [exact H|].
  destruct (field_carries def f sub) as (H1 & H2 & H3). split; [exact H1|now split].
Qed.
Print Assumptions C69_field_partial.

(** ** Variants *)
(** What is attached to a variant of an enum is in one of the alternatives that the document offers. *)
Theorem C69_variant_partial : forall St (items : nat -> item rval) tok c (s : settings St) st fuel i cs ts tg vs doc v,
  plain_settings tok c s -> root_document items s st fuel (TAdt i cs ts) doc -> d_data (it_decl (items i) cs ts) = DEnum tg vs ->
  (forall k x, In (k, x) (d_meta (it_decl (items i) cs ts)) -> k <> "oneOf" /\ k <> "anyOf") ->
  In v vs -> v_takes_part c v -> v_meta v <> [] ->
  exists l e, alternatives doc l /\ In e l /\ forall k x, says (v_meta v) k x -> s_get k e = Some x.
Proof.
  intros St items tok c s st fuel i cs ts tg vs doc v HS [g' HR] HD HM Hv HT HN.
  destruct (root_derives (info items) (reach items (TAdt i cs ts)) fuel (TAdt i cs ts) s st doc g') as (gf & sch & H1 & H2 & H3 & _); auto.
  { apply reach_closed. } { apply reach_refl. } { apply (ps_transforms _ _ _ HS). }
  pose proof (ps_contract _ _ _ HS) as HC. subst c. unfold derives_f in H2. rewrite H1 in H2.
  destruct (derives_described _ _ _ _ _ _ _ _ _ _ _ HD HM H2 v Hv HT HN) as (l & e & (m & -> & HA) & He & HV).
  exists l, e. split; [|split; [exact He|intros k x HK; apply HV; [exact HK|intros []]]].
  eexists. split; [exact H3|]. rewrite !(root_keeps_key items tok s _ HS); [exact HA| |]; apply (existsb_In _ (kws ++ ctx)); vm_compute; reflexivity.
Qed.
Print Assumptions C69_variant_partial.

(** ** Examples *)
(** /// A reading
    #[schemars(title = "Reading")] struct T { /// When
      #[schemars(extend("x-unit" = "s"))] #[serde(skip_deserializing)] at: u32, #[serde(skip_serializing)] key: String } *)
Definition at_field : field rval :=
  Field "at" "at" (TInt U32) false true None false None false no_vattrs [("description", JStr "When"); ("x-unit", JStr "s")].
Definition key_field : field rval := Field "key" "key" TStr true false None false None false no_vattrs [].
Definition read_decl : decl rval :=
  Decl false (DStruct false (Struct [at_field; key_field])) [("title", JStr "Reading"); ("description", JStr "A reading")].
Definition read_prog := one_item read_decl.
Lemma read_plain c : plain_structs read_prog c (TAdt 0 [] []).
Proof.
  constructor; [exists 0, [], []; eexists _, _; split; reflexivity|]. intros i cs ts def fs HW HD.
  assert (HX : TAdt i cs ts = TAdt 0 [] []).
  { remember (TAdt i cs ts) as u eqn:EU. clear EU HD. induction HW as [|i' cs' ts' def' fs' f' HW' IH HD' Hf HT HF]; [reflexivity|].
    injection IH as -> -> ->. cbn in HD'. injection HD' as <- <-. destruct Hf as [<-|[<-|[]]]; discriminate HF. }
  injection HX as -> -> ->. cbn in HD. injection HD as <- <-. constructor.
  - intros k x Hk. cbn in Hk. destruct Hk as [[= <- <-]|[[= <- <-]|[]]]; split; intros H; apply In_existsb in H; vm_compute in H; discriminate.
  - intros g [<-|[<-|[]]] _ HG; discriminate HG.
Qed.
Definition doc_for (c : contract) (items : nat -> item rval) : json :=
  match root_schema_for (info items) (json_schema (info items) 20) (TAdt 0 [] []) (new_gen (match c with Serialize => ex_settings | Deserialize => de_settings end) tt) with
  | Some (d, _) => d | None => JNull end.
Example C69_example :
  plain_settings "$defs" Serialize ex_settings /\ plain_settings "$defs" Deserialize de_settings /\ (forall c, plain_structs read_prog c (TAdt 0 [] []))
  /\ root_document read_prog ex_settings tt 20 (TAdt 0 [] []) (doc_for Serialize read_prog)
  /\ root_document read_prog de_settings tt 20 (TAdt 0 [] []) (doc_for Deserialize read_prog)
  /\ names_property read_prog Serialize (TAdt 0 [] []) false at_field /\ names_property read_prog Deserialize (TAdt 0 [] []) false key_field
  /\ says (f_meta at_field) "x-unit" (JStr "s") /\ says (d_meta read_decl) "title" (JStr "Reading")
  /\ doc_for Serialize read_prog = JObj
       [("$schema", JStr "https://json-schema.org/draft/2020-12/schema"); ("description", JStr "A reading");
        ("properties", JObj [("at", JObj [("description", JStr "When"); ("format", JStr "uint32"); ("minimum", JNum (NInt 0)); ("readOnly", JBool true); ("type", JStr "integer"); ("x-unit", JStr "s")])]);
        ("required", JArr [JStr "at"]); ("title", JStr "Reading"); ("type", JStr "object")]
  /\ s_get "properties" (doc_for Deserialize read_prog) = Some (JObj [("key", JObj [("type", JStr "string"); ("writeOnly", JBool true)])]).
Proof.
  split; [apply ex_plain|]. split; [apply de_plain|]. split; [apply read_plain|]. split; [eexists; vm_compute; reflexivity|].
  split; [eexists; vm_compute; reflexivity|].
  split. { exists 0, [], [], [], [key_field]. repeat split. intros g [<-|[]] HT; discriminate HT. }
  split. { exists 0, [], [], [at_field], []. repeat split. intros g []. }
  split. { exists [("description", JStr "When")], []. split; [reflexivity|intros []]. }
  split. { exists [], [("description", JStr "A reading")]. split; [reflexivity|]. cbn. intros [H|[]]. discriminate H. }
  split; vm_compute; reflexivity.
Qed.

(** enum T { Off, /// Running
                 On(u8) } *)
Definition on_variant : variant rval := Variant "On" "On" false false false (Newtype (fld "0" (TInt U8))) [("description", JStr "Running")].
Definition power_decl : decl rval := Decl false (DEnum External [Variant "Off" "Off" false false false Unit []; on_variant]) [("description", JStr "Power")].
Example C69_variant_example :
  root_document (one_item power_decl) ex_settings tt 20 (TAdt 0 [] []) (doc_for Serialize (one_item power_decl))
  /\ v_takes_part Serialize on_variant /\ says (v_meta on_variant) "description" (JStr "Running")
  /\ s_get "oneOf" (doc_for Serialize (one_item power_decl)) = Some (JArr
       [JObj [("enum", JArr [JStr "Off"]); ("type", JStr "string")];
        JObj [("additionalProperties", JBool false); ("description", JStr "Running");
              ("properties", JObj [("On", JObj [("format", JStr "uint8"); ("maximum", JNum (NInt 255)); ("minimum", JNum (NInt 0)); ("type", JStr "integer")])]);
              ("required", JArr [JStr "On"]); ("type", JStr "object")]]).
Proof.
  split; [eexists; vm_compute; reflexivity|]. split; [reflexivity|]. split; [exists [], []; split; [reflexivity|intros []]|]. vm_compute. reflexivity.
Qed.

(** (T, P) with the struct and the enum above, both in definitions *)
Definition two_prog (n : nat) : item rval := match n with 0 => read_prog 0 | _ => Item "app" "P" None false (fun _ _ => power_decl) end.
Definition two_types : list rty := [TTuple [TAdt 0 [] []; TAdt 1 [] []]; TAdt 0 [] []; TAdt 1 [] []; TInt U32; TStr; TInt U8; TUnit].
Example C69_definition_example :
  let t := TTuple [TAdt 0 [] []; TAdt 1 [] []] in
  let r := root_schema_for (info two_prog) (json_schema (info two_prog) 20) t (new_gen ex_settings tt) in
  own_ids two_prog t /\ r <> None
  /\ (reach two_prog t (TAdt 0 [] []) /\ named_after two_prog "T" (TAdt 0 [] [])) /\ (reach two_prog t (TAdt 1 [] []) /\ named_after two_prog "P" (TAdt 1 [] []))
  /\ match r with Some (_, g) => g_defs g | None => [] end =
       [("P", JObj [("description", JStr "Power"); ("oneOf", JArr
           [JObj [("enum", JArr [JStr "Off"]); ("type", JStr "string")];
            JObj [("additionalProperties", JBool false); ("description", JStr "Running");
                  ("properties", JObj [("On", JObj [("format", JStr "uint8"); ("maximum", JNum (NInt 255)); ("minimum", JNum (NInt 0)); ("type", JStr "integer")])]);
                  ("required", JArr [JStr "On"]); ("type", JStr "object")]])]);
        ("T", JObj [("description", JStr "A reading");
           ("properties", JObj [("at", JObj [("description", JStr "When"); ("format", JStr "uint32"); ("minimum", JNum (NInt 0)); ("readOnly", JBool true); ("type", JStr "integer"); ("x-unit", JStr "s")])]);
           ("required", JArr [JStr "at"]); ("title", JStr "Reading"); ("type", JStr "object")])].
Proof.
  cbv zeta. split.
  { apply (reached_ids _ _ two_types); [|check_ids].
    intros u. apply reach_list; [now left|]. intros x w HX. unfold two_types in *. cbn [In] in HX.
    repeat (destruct HX as [<-|HX]; [cbn; intuition (subst; auto 20)|]). destruct HX. }
  split; [vm_compute; discriminate|].
  split; [split; [eapply reach_step; [apply reach_refl|now left]|split; [reflexivity|now left]]|].
  split; [split; [eapply reach_step; [apply reach_refl|right; now left]|split; [reflexivity|now left]]|]. vm_compute. reflexivity.
Qed.

(** ** Metadata that is lost *)
(** struct T { /// Position
               #[serde(flatten)] pos: Pos }: nothing of what is attached to a flattened field is in the document. *)
Theorem C69_flattened_refuted : exists items f doc,
  plain_structs items Serialize (TAdt 0 [] []) /\ d_data (it_decl (items 0) [] []) = DStruct false (Struct [f])
  /\ says (f_meta f) "description" (JStr "Position") /\ root_document items ex_settings tt 20 (TAdt 0 [] []) doc
  /\ doc = JObj
       [("$schema", JStr "https://json-schema.org/draft/2020-12/schema");
        ("properties", JObj [("x", JObj [("format", JStr "int32"); ("type", JStr "integer")])]);
        ("required", JArr [JStr "x"]); ("title", JStr "Opts"); ("type", JStr "object")].
Proof.
  set (f := Field "pos" "pos" (TAdt 1 [] []) false false None false None true no_vattrs [("description", JStr "Position")] : field rval).
  set (items := fun n => match n with 0 => Item "app" "Opts" None false (fun _ _ => Decl false (DStruct false (Struct [f])) []) | _ => opt_prog n end).
  exists items, f. eexists. split.
  - assert (HW : forall u, within_flat items Serialize (TAdt 0 [] []) u -> In u [TAdt 0 [] []; TAdt 1 [] []]).
    { induction 1 as [|i cs ts def fs g HW IH HD Hf HT HF]; [now left|].
      destruct IH as [[= <- <- <-]|[[= <- <- <-]|[]]]; cbn in HD; injection HD as <- <-; cbn in Hf;
        repeat (destruct Hf as [<-|Hf]; [first [discriminate HF|cbn; tauto]|]); destruct Hf. }
    constructor; [exists 0, [], []; eexists _, _; split; reflexivity|].
    intros i cs ts def fs HX HD. apply HW in HX.
    destruct HX as [[= <- <- <-]|[[= <- <- <-]|[]]]; cbn in HD; injection HD as <- <-;
      (constructor; [intros k x []|]); intros g Hg _ HF; cbn in Hg;
      repeat (destruct Hg as [<-|Hg]; [first [discriminate HF|eexists _, _, _, _, _; split; reflexivity]|]); destruct Hg.
  - split; [reflexivity|]. split; [exists [], []; split; [reflexivity|intros []]|]. split; [eexists; vm_compute; reflexivity|reflexivity].
Qed.
Print Assumptions C69_flattened_refuted.
