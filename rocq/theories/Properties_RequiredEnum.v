(** Property theorems C48 for the struct variants of enums: the "required" list of each alternative.

    The specification is at the head of RequiredVariants.v ([fields_schema], [beside], [plain_enum]) and
    in RequiredSerde.v ([field_complete]). *)
From Coq Require Import String Ascii List ZArith Bool Lia.
From Verif Require Import ValidationAttrs Json JsonFacts Utf8 Encoding EncodingProofs SchemaApi Transform Validate ValidateFacts ValidateKw Pointer
  PointerProofs Private PrivateProps ShapeFacts PrivateFlatten Generate GenerateDoc SerValue Types TypesShape Serde SerdeFacts Derivation Properties_Root SoundBase SoundStruct SoundTypes
  TypeId Sound Required RequiredDerive RequiredSerde RequiredVariants Properties_Sound Properties_Required.
Import ListNotations.
Open Scope string_scope.
Open Scope list_scope.

Lemma enum_document St (items : nat -> item rval) tok c (s : settings St) st fuel i cs ts doc tg vs :
  plain_settings tok c s -> root_document items s st fuel (TAdt i cs ts) doc ->
  d_data (it_decl (items i) cs ts) = DEnum tg vs -> plain_enum items c (it_decl (items i) cs ts) vs -> enum_ok items s tg vs doc.
Proof.
  intros HS [g' HR] HD HP.
  destruct (root_derives (info items) (reach items (TAdt i cs ts)) fuel (TAdt i cs ts) s st doc g') as (gf & sch & H1 & H2 & H3 & _); auto.
  { apply reach_closed. } { apply reach_refl. } { apply (ps_transforms _ _ _ HS). }
  pose proof (ps_contract _ _ _ HS) as HC. subst c.
  unfold derives_f in H2. rewrite H1 in H2.
  pose proof (derives_enum items s _ _ _ i cs ts tg vs sch HD HP (reach_refl _ _) H2) as HE.
  assert (K : forall key, In key (kws ++ ctx) -> mget key (add_definitions (s_path s) (root_object (info items) (TAdt i cs ts) s sch) (g_defs gf)) = mget key (ensure_obj sch)).
  { intros key Hk. now rewrite (root_keeps_key items tok s _ HS) by exact Hk. }
  assert (K1 : In "oneOf" (kws ++ ctx) /\ In "anyOf" (kws ++ ctx)) by (split; apply (existsb_In _ (kws ++ ctx)); vm_compute; reflexivity).
  destruct K1 as [K1 K2]. apply K in K1, K2. clear K.
  intros v fs Hv HT ES. destruct (HE v fs Hv HT ES) as (l & e & (m & -> & Hl) & He & Hd). exists l, e. split; [|now split].
  exists (add_definitions (s_path s) (root_object (info items) (TAdt i cs ts) s (JObj m)) (g_defs gf)). split; [now rewrite H3|].
  cbn [ensure_obj ensure_object] in K1, K2. rewrite K1, K2. exact Hl.
Qed.

(** ** The properties, under either contract *)
(** For a struct variant the document offers an alternative that has the properties of the fields, and
    requires those of them that are mandatory (and the tag, if it stands beside them). *)
Theorem C48_variant_properties_partial : forall St (items : nat -> item rval) tok c (s : settings St) st fuel i cs ts doc tg vs v fs,
  plain_settings tok c s -> d_data (it_decl (items i) cs ts) = DEnum tg vs -> plain_enum items c (it_decl (items i) cs ts) vs ->
  root_document items s st fuel (TAdt i cs ts) doc ->
  In v vs -> v_takes_part c v -> v_style v = Struct fs ->
  exists l e sub, alternatives doc l /\ In e l /\ fields_schema c tg v e sub
  /\ (forall k, has_property sub k <-> beside tg v k \/ exists f, In f fs /\ takes_part c f /\ field_has items c f k)
  /\ (forall k, requires sub k <-> beside tg v k \/ exists f, In f fs /\ takes_part c f /\ field_needs items c (schema_must c) false f k).
Proof.
  intros St items tok c s st fuel i cs ts doc tg vs v fs HS HD HP HR Hv HT ES. pose proof (ps_contract _ _ _ HS) as HC. subst c.
  destruct (enum_document _ _ _ _ _ _ _ _ _ _ _ _ _ HS HR HD HP v fs Hv HT ES) as (l & e & H1 & H2 & sub & H3 & H4 & H5 & _).
  exists l, e, sub. repeat (split; [assumption|]). assumption.
Qed.
Print Assumptions C48_variant_properties_partial.

(** ** Deserialization *)
(** Not for a field marked [schemars(required)], nor for a Weak or a type that is converted from an Option *)
Definition fields_presence (items : nat -> item rval) (fs : list (field rval)) : Prop :=
  forall f, In f fs -> takes_part Deserialize f -> (f_required f = false /\ (is_option (f_ty f) = true <-> missing_ok items (f_ty f))) /\
    (f_flatten f = true -> plain_presence items (strip_option (f_ty f))).

(** An object has the keys that the alternative requires iff it has the tag and reading the fields finds
    none of them missing. *)
Theorem C48_variant_deserialize_partial : forall St (items : nat -> item rval) tok (s : settings St) st fuel i cs ts doc tg vs v fs,
  plain_settings tok Deserialize s -> d_data (it_decl (items i) cs ts) = DEnum tg vs -> plain_enum items Deserialize (it_decl (items i) cs ts) vs ->
  root_document items s st fuel (TAdt i cs ts) doc ->
  In v vs -> v_takes_part Deserialize v -> v_style v = Struct fs -> fields_presence items fs ->
  exists l e sub, alternatives doc l /\ In e l /\ fields_schema Deserialize tg v e sub
  /\ forall keys, (forall k, requires sub k -> In k keys) <->
       (forall k, beside tg v k -> In k keys) /\ (forall f, In f fs -> field_complete items keys false f).
Proof.
  intros St items tok s st fuel i cs ts doc tg vs v fs HS HD HP HR Hv HT ES HA. pose proof (ps_contract _ _ _ HS) as HC.
  assert (HT' : v_takes_part (s_contract s) v) by now rewrite HC.
  destruct (enum_document _ _ _ _ _ _ _ _ _ _ _ _ _ HS HR HD HP v fs Hv HT' ES) as (l & e & H1 & H2 & sub & H3 & H4 & H5 & HG & _).
  exists l, e, sub. rewrite HC in *. split; [exact H1|]. split; [exact H2|]. split; [exact H3|]. intros keys.
  rewrite (fields_complete_iff items fs keys HG).
  - split.
    + intros H. split; intros k Hk; apply H, H5; auto.
    + intros [Ha Hb] k Hk. apply H5 in Hk as [Hk|Hk]; auto.
  - intros f Hf HTf. exact (proj1 (HA f Hf HTf)).
  - intros f g Hf HTf HF Hg. exact (proj2 (HA f Hf HTf) HF g Hg).
Qed.
Print Assumptions C48_variant_deserialize_partial.

(** ** Serialization *)
Definition fields_skips (items : nat -> item rval) (fs : list (field rval)) : Prop :=
  forall f, In f fs -> takes_part Serialize f ->
    (f_flatten f = true -> f_skip_if f <> None -> is_option (f_ty f) = true /\ f_required f = false) /\
    (forall p, f_skip_if f = Some p -> exists x, p x = true) /\
    (f_flatten f = true -> plain_skips items (strip_option (f_ty f)) /\ skips_possible items (strip_option (f_ty f))).

(** A property is required iff every value of the variant is serialized to an object that has it. *)
Theorem C48_variant_serialize_partial : forall St (items : nat -> item rval) text_ok tok (s : settings St) st fuel i cs ts doc tg vs n v fs,
  plain_settings tok Serialize s -> d_data (it_decl (items i) cs ts) = DEnum tg vs -> plain_enum items Serialize (it_decl (items i) cs ts) vs ->
  root_document items s st fuel (TAdt i cs ts) doc ->
  nth_error vs n = Some v -> v_takes_part Serialize v -> v_style v = Struct fs -> fields_skips items fs ->
  (exists xs j, value_json items text_ok true (TAdt i cs ts) (RVariant n xs) = Some j) ->
  exists l e sub, alternatives doc l /\ In e l /\ fields_schema Serialize tg v e sub
  /\ forall k, requires sub k <-> has_property sub k /\
       forall xs j, value_json items text_ok true (TAdt i cs ts) (RVariant n xs) = Some j ->
         exists o x, fields_object tg v j o /\ mget k o = Some x.
Proof.
  intros St items text_ok tok s st fuel i cs ts doc tg vs n v fs HS HD HP HR Hn HT ES HA (xs0 & j0 & HV0). pose proof (ps_contract _ _ _ HS) as HC.
  assert (Hv : In v vs) by (eapply nth_error_In; eauto).
  assert (HT' : v_takes_part (s_contract s) v) by now rewrite HC.
  destruct (enum_document _ _ _ _ _ _ _ _ _ _ _ _ _ HS HR HD HP v fs Hv HT' ES) as (l & e & H1 & H2 & sub & H3 & H4 & H5 & HG & _).
  exists l, e, sub. rewrite HC in *. split; [exact H1|]. split; [exact H2|]. split; [exact H3|]. intros k. cbn in HT.
  assert (HAf : forall f, In f fs -> f_skip_ser f = false -> f_flatten f = true ->
    forall g, flat_field items Serialize (strip_option (f_ty f)) g -> ~ skipped_flat g).
  { intros f Hf HSk HF g Hg (F1 & F2 & F3). destruct (HA f Hf HSk) as (_ & _ & HX). destruct (HX HF) as [HX1 _]. destruct (HX1 g Hg F1 F2) as [G1 G2].
    unfold loose in F3. now rewrite G1, G2 in F3. }
  pose proof (fun xs => enum_json items text_ok i cs ts tg vs HD n v fs xs Hn HT ES) as HEq.
  split.
  - intros HN. split.
    { apply H4. apply H5 in HN as [HN|(f & Hf & HTf & HN)]; [now left|right]. exists f. split; [exact Hf|]. split; [exact HTf|].
      inversion HN as [d f0 HFl HM|d f0 k0 HFl HL HK]; subst; [now apply HasName|apply HasFlat; auto]. eapply needs_has; eauto. }
    intros xs j HV. rewrite HEq in HV. destruct (ser_fields text_ok true (own_names fs) fs (SoundStruct.parts items text_ok xs)) as [es|] eqn:EE; [|discriminate].
    destruct (omap _ es) as [js|] eqn:EO; [|discriminate]. injection HV as <-. apply omap_printable in EO as [_ HF].
    destruct (variant_object tg v js) as (o & O1 & _ & O3). exists o.
    assert (HX : mget k o <> None).
    { apply O3. apply H5 in HN as [HN|HN]; [now left|right]. rewrite HF. eapply fields_written; eauto.
      - intros f w sv Hf HSk HFl HNf HSv. eapply needs_written; eauto.
      - intros f Hf HSk (F1 & F2 & F3). destruct (HA f Hf HSk) as (HX & _). destruct (HX F1 F2) as [G1 G2]. unfold loose in F3. now rewrite G1, G2 in F3. }
    destruct (mget k o) as [x|] eqn:EX; [|congruence]. exists x. now split.
  - intros [HK HV]. destruct (requires_dec sub k) as [HN|HN]; [exact HN|exfalso]. rewrite H5 in HN.
    rewrite HEq in HV0. destruct (ser_fields text_ok true (own_names fs) fs (SoundStruct.parts items text_ok xs0)) as [es0|] eqn:EE0; [|discriminate].
    destruct (omap _ es0) as [js0|] eqn:EO0; [|discriminate]. apply omap_printable in EO0 as [HP0 _].
    destruct (fields_omit items text_ok (own_names fs) false k fs) with (l := xs0) (es := es0) as (xs & es & G1 & G2 & G3); auto.
    { intros f Hf HSk HFl w sv HSv HJ HNf. eapply unneeded_omitted; eauto. destruct (HA f Hf HSk) as (_ & _ & HX). exact (proj2 (HX HFl)). }
    { intros f Hf HSk HNf. apply HN. right. now exists f. }
    { intros f p Hf HSk. destruct (HA f Hf HSk) as (_ & HX & _). apply HX. }
    destruct (printable_omap es G2) as (js & HJ & HF).
    destruct (variant_object tg v js) as (o & O1 & O2 & O3).
    destruct (HV xs (variant_json tg v js)) as (o' & x & Ho & Hx).
    { rewrite HEq, G1, HJ. reflexivity. }
    apply O2 in Ho. subst o'. assert (HX : mget k o <> None) by congruence. apply O3 in HX as [HX|HX]; [apply HN; now left|]. rewrite HF in HX. contradiction.
Qed.
Print Assumptions C48_variant_serialize_partial.

(** ** Examples *)
(** enum Shape { Empty, #[serde(rename(serialize = "area"))] Area { name: String, nick: Option<String>, #[serde(default)] level: u8,
      #[serde(skip_serializing_if = "Vec::is_empty")] tags: Vec<String>, #[serde(flatten)] pos: Box<Pos>,
      #[serde(flatten)] span: Option<Span> } } *)
Definition area_fields : list (field rval) :=
  [fld "name" TStr; fld "nick" (TOption TStr);
   Field "level" "level" (TInt U8) false false None true None false no_vattrs [];
   Field "tags" "tags" (TSeq TStr) false false (Some is_empty_seq) false None false no_vattrs [];
   flat "pos" (TFwd (TAdt 1 [] [])); flat "span" (TOption (TAdt 2 [] []))].
Definition area : variant rval := Variant "area" "Area" false false false (Struct area_fields) [("description", JStr "An area")].
Definition shape_variants : list (variant rval) := [Variant "Empty" "Empty" false false false Unit []; area].
Definition shape_prog (tg : tagging) (n : nat) : item rval :=
  match n with
  | 0 => Item "app" "Shape" None false (fun _ _ => Decl false (DEnum tg shape_variants) [("description", JStr "A shape")])
  | _ => conf_prog n
  end.
Definition shape : rty := TAdt 0 [] [].

Lemma shape_within tg c t u : In t [TAdt 1 [] []; TAdt 2 [] []] -> within_flat (shape_prog tg) c t u -> In u [TAdt 1 [] []; TAdt 2 [] []].
Proof.
  intros Ht. induction 1 as [|i cs ts def fs f HW IH HD Hf HT HF]; [exact Ht|].
  destruct IH as [[= <- <- <-]|[[= <- <- <-]|[]]]; cbn in HD; injection HD as <- <-; cbn in Hf;
    repeat (destruct Hf as [<-|Hf]; [first [discriminate HF|cbn; tauto]|]); destruct Hf.
Qed.
Lemma shape_field tg c t f : In t [TAdt 1 [] []; TAdt 2 [] []] -> flat_field (shape_prog tg) c t f -> In f (pos_fields ++ span_fields).
Proof.
  intros Ht (i & cs & ts & def & fs & HW & HD & Hf & _). apply shape_within in HW; [|exact Ht].
  destruct HW as [[= <- <- <-]|[[= <- <- <-]|[]]]; cbn in HD; injection HD as <- <-; rewrite in_app_iff; tauto.
Qed.
Lemma described d : plain_meta [("description", d)].
Proof. intros k x [[= <- <-]|[]]. split; intros H; apply (In_existsb "description") in H; vm_compute in H; discriminate. Qed.
Lemma area_flat f : In f area_fields -> f_flatten f = true -> In (strip_option (f_ty f)) [TAdt 1 [] []; TAdt 2 [] []].
Proof. intros Hf HF. cbn in Hf. repeat (destruct Hf as [<-|Hf]; [first [discriminate HF|cbn; tauto]|]). destruct Hf. Qed.
Lemma shape_plain tg c : plain_enum (shape_prog tg) c (it_decl (shape_prog tg 0) [] []) shape_variants.
Proof.
  constructor; [apply described| |].
  - intros v fs [<-|[<-|[]]] _ ES; [discriminate|apply described].
  - intros v fs f [<-|[<-|[]]] _ ES Hf HT HF; [discriminate|]. injection ES as <-. pose proof (area_flat f Hf HF) as HI. split.
    + destruct HI as [<-|[<-|[]]]; eexists _, _, _, _, _; split; reflexivity.
    + intros i cs ts def fs' HW HD. apply shape_within in HW; [|exact HI].
      destruct HW as [[= <- <- <-]|[[= <- <- <-]|[]]]; cbn in HD; injection HD as <- <-; (constructor; [intros k x []|]); intros g Hg _ HFg; cbn in Hg;
        repeat (destruct Hg as [<-|Hg]; [discriminate HFg|]); destruct Hg.
Qed.
Lemma shape_presence tg : fields_presence (shape_prog tg) area_fields.
Proof.
  intros f Hf HT. split.
  - cbn in Hf. repeat (destruct Hf as [<-|Hf]; [split; [reflexivity|split; presence]|]). destruct Hf.
  - intros HF g Hg. apply shape_field in Hg; [|now apply area_flat]. cbn in Hg.
    repeat (destruct Hg as [<-|Hg]; [split; [reflexivity|split; presence]|]). destruct Hg.
Qed.
Lemma shape_skips tg : fields_skips (shape_prog tg) area_fields.
Proof.
  intros f Hf HT. split; [|split].
  - intros HF HS. cbn in Hf. repeat (destruct Hf as [<-|Hf]; [first [discriminate HF|now elim HS]|]). destruct Hf.
  - intros p HS. cbn in Hf. repeat (destruct Hf as [<-|Hf]; [first [discriminate HS|cbn in HS; injection HS as <-; now exists (RSeq [])]|]). destruct Hf.
  - intros HF. apply area_flat in Hf; [|exact HF]. split.
    + intros g Hg HFg HS. apply shape_field in Hg; [|exact Hf]. cbn in Hg. repeat (destruct Hg as [<-|Hg]; [discriminate HFg|]). destruct Hg.
    + intros g p Hg HS. apply shape_field in Hg; [|exact Hf]. cbn in Hg. repeat (destruct Hg as [<-|Hg]; [discriminate HS|]). destruct Hg.
Qed.

Definition shape_doc (tg : tagging) (s : settings unit) : json :=
  match root_schema_for (info (shape_prog tg)) (json_schema (info (shape_prog tg)) 20) shape (new_gen s tt) with Some (d, _) => d | None => JNull end.
Definition shape_value : rval := RVariant 1 [RStr "n"; RNone; RInt 3; RSeq []; RSeq [RInt 1; RInt 2]; RSome (RSeq [RInt 4; RInt 5])].
(** The schema of the fields and its "required", for the second alternative *)
Definition second (doc : json) : option json :=
  match s_get "oneOf" doc with Some (JArr [_; e]) => Some e | _ => None end.
Definition under (k : string) (e : option json) : option json :=
  match e with Some e => match s_get "properties" e with Some (JObj ps) => mget k ps | _ => None end | None => None end.
Definition required_in (e : option json) : option json := match e with Some e => s_get "required" e | None => None end.

Definition area_value : list (string * json) :=
  [("end", JNum (NInt 5)); ("level", JNum (NInt 3)); ("name", JStr "n"); ("nick", JNull); ("start", JNum (NInt 4)); ("x", JNum (NInt 1)); ("y", JNum (NInt 2))].

(** Under each of the representations *)
Example C48_variant_example :
  (forall tg, plain_settings "$defs" Deserialize de_settings /\ plain_settings "$defs" Serialize ex_settings
    /\ d_data (it_decl (shape_prog tg 0) [] []) = DEnum tg shape_variants
    /\ (forall c, plain_enum (shape_prog tg) c (it_decl (shape_prog tg 0) [] []) shape_variants)
    /\ root_document (shape_prog tg) de_settings tt 20 shape (shape_doc tg de_settings)
    /\ root_document (shape_prog tg) ex_settings tt 20 shape (shape_doc tg ex_settings)
    /\ nth_error shape_variants 1 = Some area /\ (forall c, v_takes_part c area)
    /\ fields_presence (shape_prog tg) area_fields /\ fields_skips (shape_prog tg) area_fields)
  /\ (* deserialization: tagged outside, inside and beside the content *)
  required_in (under "Area" (second (shape_doc External de_settings))) = Some (JArr [JStr "name"; JStr "tags"; JStr "x"])
  /\ required_in (second (shape_doc (Internal "kind") de_settings)) = Some (JArr [JStr "kind"; JStr "name"; JStr "tags"; JStr "x"])
  /\ required_in (under "c" (second (shape_doc (Adjacent "t" "c") de_settings))) = Some (JArr [JStr "name"; JStr "tags"; JStr "x"])
  /\ (* serialization *)
  required_in (under "area" (second (shape_doc External ex_settings))) = Some (JArr [JStr "name"; JStr "nick"; JStr "level"; JStr "x"; JStr "y"])
  /\ value_json (shape_prog External) all_texts true shape shape_value = Some (JObj [("area", JObj area_value)])
  /\ value_json (shape_prog (Adjacent "t" "c")) all_texts true shape shape_value = Some (JObj [("c", JObj area_value); ("t", JStr "area")])
  /\ fields_object (Adjacent "t" "c") area (JObj [("c", JObj area_value); ("t", JStr "area")]) area_value.
Proof.
  split; [|repeat split; try (vm_compute; reflexivity)].
  - intros tg. split; [apply de_plain|]. split; [apply ex_plain|]. split; [reflexivity|]. split; [intros c; apply shape_plain|].
    split; [|split]; [destruct tg; eexists; vm_compute; reflexivity..|].
    split; [reflexivity|]. split; [intros []; reflexivity|]. split; [apply shape_presence|apply shape_skips].
  - eexists. split; reflexivity.
Qed.

(** ** Where the schema and serde differ *)
(** enum T { A { parent: Weak<u8> } }: the schema requires the Weak although serde reads
    a missing one as a dead one. *)
Theorem C48_variant_weak_refuted : exists items doc sub,
  root_document items de_settings tt 20 (TAdt 0 [] []) doc /\
  (exists l e, alternatives doc l /\ In e l /\ property_is e "A" sub) /\
  d_data (it_decl (items 0) [] []) = DEnum External [Variant "A" "A" false false false (Struct [fld "parent" (TWeak (TInt U8))]) []] /\
  field_complete items [] false (fld "parent" (TWeak (TInt U8))) /\ requires sub "parent".
Proof.
  exists (one_item (Decl false (DEnum External [Variant "A" "A" false false false (Struct [fld "parent" (TWeak (TInt U8))]) []]) [])).
  eexists. eexists. split; [eexists; vm_compute; reflexivity|]. split.
  - eexists _, _. split; [eexists; split; [reflexivity|left; reflexivity]|]. split; [left; reflexivity|].
    eexists _, _. split; [reflexivity|]. split; reflexivity.
  - split; [reflexivity|]. split; [apply CMissing; [reflexivity|apply MWeak]|]. apply requires_b_spec. vm_compute. reflexivity.
Qed.
Print Assumptions C48_variant_weak_refuted.
