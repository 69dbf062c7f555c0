(** Property theorems C53, C68 and C69 for the struct variants of enums.

    [alternatives], [fields_schema], [beside], [plain_enum], [property_is], [required_once]: RequiredVariants.v;
    [says]: Metadata.v; [has_default], [left_out], [defaults_to], [own_ids], [named_after]: Properties_Default.v;
    [all_distinct], [distinct_names]: Required.v *)
From Coq Require Import String Ascii List ZArith Bool Lia.
From Verif Require Import ValidationAttrs ValidationProofs Json JsonFacts Utf8 Encoding EncodingProofs SchemaApi Transform Validate ValidateFacts ValidateKw Pointer
  PointerProofs Private PrivateProps ShapeFacts PrivateFlatten Generate GenerateDoc SerValue Types TypesShape Serde SerdeFacts Derivation Properties_Root SoundBase SoundStruct SoundTypes SoundAdt
  TypeId Sound Required RequiredDerive RequiredSerde RequiredVariants Defaults Metadata Properties_Sound Properties_Required Properties_RequiredEnum Properties_Default Properties_Metadata
  Properties_RequiredOnce.
Import ListNotations.
Open Scope string_scope.
Open Scope list_scope.

(** ** Specification *)
(** One of the alternatives of [doc] says [P] of the fields of the variant [v]. *)
Definition says_of_fields (doc : json) (c : contract) (tg : tagging) (v : variant rval) (P : json -> Prop) : Prop :=
  exists l e s, alternatives doc l /\ In e l /\ fields_schema c tg v e s /\ P s.
(** [f] is a field of the struct variant [v], and neither a later field nor the tag has a property of its name. *)
Definition names_variant_property (items : nat -> item rval) (c : contract) (tg : tagging) (vs : list (variant rval)) (v : variant rval) (f : field rval) : Prop :=
  exists l1 l2, In v vs /\ v_takes_part c v /\ v_style v = Struct (l1 ++ f :: l2) /\ takes_part c f /\ f_flatten f = false
    /\ unshadowed items c f l2 /\ ~ beside tg v (key c f).
(** No two fields of the variant, nor of the structs flattened into it, nor the tag, have a property of the same name. *)
Definition variant_distinct (items : nat -> item rval) (c : contract) (tg : tagging) (vs : list (variant rval)) (v : variant rval) : Prop :=
  exists fs, In v vs /\ v_takes_part c v /\ v_style v = Struct fs /\ distinct_names items c fs
    /\ (forall f, In f fs -> takes_part c f -> f_flatten f = true -> all_distinct items c (strip_option (f_ty f)))
    /\ (forall f k, In f fs -> takes_part c f -> field_has items c f k -> ~ beside tg v k).
(** What is claimed of the schema [d] of the enum *)
Record variant_fields (items : nat -> item rval) (text_ok : checks) (c : contract) (tg : tagging) (vs : list (variant rval)) (d : json) : Prop := {
  vf_meta : forall v f, names_variant_property items c tg vs v f -> says_of_fields d c tg v (fun s => exists sub, property_is s (key c f) sub
    /\ (forall k x, says (f_meta f) k x -> ~ In k (["items"; "default"; "readOnly"; "writeOnly"] ++ validation_keywords) -> s_get k sub = Some x)
    /\ (f_skip_de f = true -> s_get "readOnly" sub = Some (JBool true))
    /\ (f_skip_ser f = true -> s_get "writeOnly" sub = Some (JBool true)));
  vf_default : forall v f x j, names_variant_property items c tg vs v f -> defaults_to items text_ok false f x -> has_default false f -> ~ left_out f x ->
    value_json items text_ok false (f_ty f) x = Some j ->
    says_of_fields d c tg v (fun s => exists sub, property_is s (key c f) sub /\ s_get "default" sub = Some j);
  vf_required : forall v, variant_distinct items c tg vs v -> says_of_fields d c tg v required_once }.

Lemma enum_fields St (items : nat -> item rval) text_ok (s : settings St) tg vs d : enum_ok items s tg vs d -> variant_fields items text_ok (s_contract s) tg vs d.
Proof.
  intros HE.
  assert (HP : forall v f, names_variant_property items (s_contract s) tg vs v f ->
    says_of_fields d (s_contract s) tg v (fun x => exists sub, property_is x (key (s_contract s) f) (insert_default false f (field_mutators f sub)))).
  { intros v f (l1 & l2 & Hv & HT & ES & HTf & HF & HU & HB). destruct (HE v _ Hv HT ES) as (l & e & HA & He & x & H1 & _ & _ & _ & H2 & _).
    exists l, e, x. repeat (split; [assumption|]). now apply (H2 l1 f l2). }
  constructor.
  - intros v f HN. destruct (HP v f HN) as (l & e & x & HA & He & HS & sub & H). exists l, e, x. repeat (split; [assumption|]).
    eexists. split; [exact H|]. destruct (field_carries false f sub) as (H1 & H2 & H3). split; [exact H1|now split].
  - intros v f y j HN HV HD HL HJ. destruct (HP v f HN) as (l & e & x & HA & He & HS & sub & H). exists l, e, x. repeat (split; [assumption|]).
    eexists. split; [exact H|]. apply insert_default_get; [exact HD|]. rewrite HV. unfold default_json, field_default_expr. destruct HD as [HD ->]. cbn [orb].
    destruct HD as [->|HD]; [|discriminate HD]. cbn [negb andb].
    destruct (f_skip_if f) as [p|] eqn:EP; [|exact HJ]. destruct (p y) eqn:ED; [|exact HJ]. elim HL. now exists p.
  - intros v (fs & Hv & HT & ES & H1 & H2 & H3). destruct (HE v _ Hv HT ES) as (l & e & HA & He & x & HS & _ & _ & _ & _ & H).
    exists l, e, x. repeat (split; [assumption|]). now apply H.
Qed.

(** ** Theorems *)
Theorem C69_variant_field_partial : forall St (items : nat -> item rval) text_ok tok c (s : settings St) st fuel i cs ts doc tg vs,
  plain_settings tok c s -> d_data (it_decl (items i) cs ts) = DEnum tg vs -> plain_enum items c (it_decl (items i) cs ts) vs ->
  root_document items s st fuel (TAdt i cs ts) doc -> variant_fields items text_ok c tg vs doc.
Proof.
  intros St items text_ok tok c s st fuel i cs ts doc tg vs HS HD HP HR. pose proof (ps_contract _ _ _ HS) as HC. subst c.
  apply enum_fields. eapply enum_document; eauto.
Qed.
Print Assumptions C69_variant_field_partial.

(** The same for the enums in definitions *)
Theorem C69_variant_field_definition_partial : forall St (items : nat -> item rval) text_ok c (s : settings St) st fuel t doc g' n d,
  s_contract s = c -> s_transforms s = [] -> own_ids items t ->
  root_schema_for (info items) (json_schema (info items) fuel) t (new_gen s st) = Some (doc, g') -> mget n (g_defs g') = Some d ->
  exists u, reach items t u /\ named_after items n u
    /\ forall i cs ts tg vs, unwrap u = TAdt i cs ts -> d_data (it_decl (items i) cs ts) = DEnum tg vs -> plain_enum items c (it_decl (items i) cs ts) vs ->
         variant_fields items text_ok c tg vs d.
Proof.
  intros St items text_ok c s st fuel t doc g' n d <- HS HId HR HN.
  destruct (definition_of _ _ _ _ _ _ _ _ _ _ HS HId HR HN) as (u & R & ans & seen & Hu & HNm & HD). exists u. split; [exact Hu|]. split; [exact HNm|].
  intros i cs ts tg vs HX HE HP. rewrite HX in HD. apply derives_any in HD. apply enum_fields. exact (derives_enum items s _ _ _ i cs ts tg vs d HE HP I HD).
Qed.
Print Assumptions C69_variant_field_definition_partial.

Theorem C68_variant_partial : forall St (items : nat -> item rval) text_ok tok c (s : settings St) st fuel i cs ts doc tg vs v f d j,
  plain_settings tok c s -> d_data (it_decl (items i) cs ts) = DEnum tg vs -> plain_enum items c (it_decl (items i) cs ts) vs ->
  root_document items s st fuel (TAdt i cs ts) doc -> names_variant_property items c tg vs v f ->
  defaults_to items text_ok false f d -> has_default false f -> ~ left_out f d -> value_json items text_ok false (f_ty f) d = Some j ->
  says_of_fields doc c tg v (fun s => exists sub, property_is s (key c f) sub /\ s_get "default" sub = Some j).
Proof.
  intros. eapply (vf_default items text_ok); eauto. eapply C69_variant_field_partial; eauto.
Qed.
Print Assumptions C68_variant_partial.

Theorem C53_required_once_variant_partial : forall St (items : nat -> item rval) tok c (s : settings St) st fuel i cs ts doc tg vs v,
  plain_settings tok c s -> d_data (it_decl (items i) cs ts) = DEnum tg vs -> plain_enum items c (it_decl (items i) cs ts) vs ->
  root_document items s st fuel (TAdt i cs ts) doc -> variant_distinct items c tg vs v -> says_of_fields doc c tg v required_once.
Proof.
  intros. eapply (vf_required items all_texts); eauto. eapply C69_variant_field_partial; eauto.
Qed.
Print Assumptions C53_required_once_variant_partial.

(** ** Example *)
(** #[serde(tag = "kind")] enum T { Empty, Dot { /// The radius
                                                 #[serde(default)] r: u8, name: String } } *)
Definition dot_r : field rval := Field "r" "r" (TInt U8) false false None true (Some (JNum (NInt 0))) false no_vattrs [("description", JStr "The radius")].
Definition dot : variant rval := Variant "Dot" "Dot" false false false (Struct [dot_r; fld "name" TStr]) [].
Definition dot_variants : list (variant rval) := [Variant "Empty" "Empty" false false false Unit []; dot].
Definition dot_prog := one_item (Decl false (DEnum (Internal "kind") dot_variants) []).
Lemma dot_plain c : plain_enum dot_prog c (it_decl (dot_prog 0) [] []) dot_variants.
Proof.
  constructor; [intros k x []| |].
  - intros v fs [<-|[<-|[]]] _ ES k x []. 
  - intros v fs f [<-|[<-|[]]] _ ES Hf HT HF; [discriminate|]. injection ES as <-. destruct Hf as [<-|[<-|[]]]; discriminate HF.
Qed.
Lemma named_only items c (f : field rval) k : f_flatten f = false -> field_has items c f k -> k = key c f.
Proof. intros HF H. inversion H; subst; congruence. Qed.
Lemma dot_names c : names_variant_property dot_prog c (Internal "kind") dot_variants dot dot_r.
Proof.
  exists [], [fld "name" TStr]. split; [right; now left|]. split; [now destruct c|]. split; [reflexivity|]. split; [now destruct c|]. split; [reflexivity|].
  split; [|intros [_ H]; destruct c; discriminate H].
  intros g [<-|[]] _ H. apply named_only in H; [|reflexivity]. destruct c; discriminate H.
Qed.
Lemma dot_distinct c : variant_distinct dot_prog c (Internal "kind") dot_variants dot.
Proof.
  exists [dot_r; fld "name" TStr]. split; [right; now left|]. split; [now destruct c|]. split; [reflexivity|]. split; [|split].
  - intros l1 f l2 g l3 HE _ _ k H1 H2. destruct l1 as [|? l1]; injection HE as <- HE.
    + destruct l2 as [|? l2]; injection HE as <- HE; [|now destruct l2]. apply named_only in H1, H2; try reflexivity. subst k. destruct c; discriminate H2.
    + destruct l1 as [|? l1]; injection HE as <- HE; [now destruct l2|now destruct l1].
  - intros f [<-|[<-|[]]] _ HF; discriminate HF.
  - intros f k [<-|[<-|[]]] _ H [_ HB]; apply named_only in H; try reflexivity; destruct c; cbn in H; congruence.
Qed.
Example C69_variant_field_example :
  plain_settings "$defs" Serialize ex_settings /\ d_data (it_decl (dot_prog 0) [] []) = DEnum (Internal "kind") dot_variants
  /\ plain_enum dot_prog Serialize (it_decl (dot_prog 0) [] []) dot_variants
  /\ root_document dot_prog ex_settings tt 20 (TAdt 0 [] []) (doc_for Serialize dot_prog)
  /\ names_variant_property dot_prog Serialize (Internal "kind") dot_variants dot dot_r /\ variant_distinct dot_prog Serialize (Internal "kind") dot_variants dot
  /\ defaults_to dot_prog all_texts false dot_r (RInt 0) /\ has_default false dot_r /\ ~ left_out dot_r (RInt 0)
  /\ s_get "oneOf" (doc_for Serialize dot_prog) = Some (JArr
       [JObj [("properties", JObj [("kind", JObj [("const", JStr "Empty"); ("type", JStr "string")])]); ("required", JArr [JStr "kind"]); ("type", JStr "object")];
        JObj [("properties", JObj [("kind", JObj [("const", JStr "Dot"); ("type", JStr "string")]); ("name", JObj [("type", JStr "string")]);
                                   ("r", JObj [("default", JNum (NInt 0)); ("description", JStr "The radius"); ("format", JStr "uint8"); ("maximum", JNum (NInt 255)); ("minimum", JNum (NInt 0)); ("type", JStr "integer")])]);
              ("required", JArr [JStr "kind"; JStr "r"; JStr "name"]); ("type", JStr "object")]]).
Proof.
  split; [apply ex_plain|]. split; [reflexivity|]. split; [apply dot_plain|]. split; [eexists; vm_compute; reflexivity|].
  split; [apply dot_names|]. split; [apply dot_distinct|]. split; [reflexivity|]. split; [split; [now left|reflexivity]|].
  split; [intros (p & HP & _); discriminate HP|]. vm_compute. reflexivity.
Qed.
