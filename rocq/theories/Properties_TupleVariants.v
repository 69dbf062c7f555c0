(** Property theorems C69 for the fields of newtype and tuple variants.

    [alternatives], [fields_schema], [v_takes_part]: RequiredVariants.v; [has_meta], [taking], [element_schemas]: Properties_TupleFields.v;
    [plain_meta]: Required.v; [own_ids], [named_after]: Properties_Default.v *)
From Coq Require Import String Ascii List ZArith Bool Lia.
From Verif Require Import ValidationAttrs ValidationProofs Json JsonFacts Utf8 Encoding EncodingProofs SchemaApi Transform Validate ValidateFacts ValidateKw Pointer
  PointerProofs Private PrivateProps ShapeFacts PrivateFlatten Generate GenerateDoc SerValue Types TypesShape Serde SerdeFacts Derivation Properties_Root SoundBase SoundStruct SoundTypes SoundAdt
  TypeId Sound Required RequiredDerive RequiredSerde RequiredVariants Defaults Metadata Properties_Sound Properties_Required Properties_Default Properties_Metadata Properties_TupleFields.
Import ListNotations.
Open Scope string_scope.
Open Scope list_scope.

(** ** Specification *)
(** Nothing attached to the enum or to one of its variants is a keyword that affects validation. *)
Definition plain_variants (c : contract) (d : decl rval) (vs : list (variant rval)) : Prop :=
  plain_meta (d_meta d) /\ forall v, In v vs -> v_takes_part c v -> plain_meta (v_meta v).
(** The keys that the variant itself puts in the schema of its contents, where the two are one schema *)
Definition shared_keys (tg : tagging) (v : variant rval) : list string :=
  if v_untagged v then map fst (v_meta v) else
  match tg with
  | Untagged => map fst (v_meta v)
  | Internal _ => ["type"; "properties"; "required"; "additionalProperties"] ++ map fst (v_meta v)
  | External | Adjacent _ _ => []
  end.
(** The schema [s] of the contents of the variant has what is attached to the fields. *)
Definition contents_meta (c : contract) (but : list string) (st : style rval) (s : json) : Prop :=
  match st with
  | Newtype f => has_meta but f s
  | Tuple fs => taking c fs <> [] -> ~ In "prefixItems" but -> exists l, element_schemas c fs l /\ s_get "prefixItems" s = Some (JArr l)
  | _ => True
  end.
Definition has_contents (v : variant rval) : Prop := match v_style v with Newtype _ | Tuple _ => True | _ => False end.
(** For each of the variants that take part, one of the alternatives has what is attached to the fields. *)
Definition tuple_variants (c : contract) (tg : tagging) (vs : list (variant rval)) (d : json) : Prop :=
  forall v, In v vs -> v_takes_part c v -> has_contents v ->
    exists l e s, RequiredVariants.alternatives d l /\ In e l /\ fields_schema c tg v e s /\ contents_meta c (shared_keys tg v) (v_style v) s.

(** ** Proofs *)
Lemma contents_mono c but st s s' : contents_meta c [] st s -> (forall k x, ~ In k but -> s_get k s = Some x -> s_get k s' = Some x) -> contents_meta c but st s'.
Proof.
  intros H HK. destruct st as [|f|fs|fs]; cbn [contents_meta] in *; auto.
  - destruct H as (A1 & A2 & A3). split; [|split]; intros; apply HK; auto.
  - intros HL HN. destruct (H HL) as (l & H1 & H2); [intros []|]. exists l. split; auto.
Qed.

Lemma tag_get tag name deny s k x : ~ In k ["type"; "properties"; "required"; "additionalProperties"] -> s_get k s = Some x -> s_get k (apply_internal_tag tag name deny s) = Some x.
Proof.
  intros HN HX. destruct s as [| | | | |m]; try discriminate HX. cbn [s_get] in HX. unfold apply_internal_tag. cbn [ensure_obj ensure_object s_get]. cbn [In] in HN.
  assert (HU : forall k' d f m, k <> k' -> mget k (entry_update k' d f m) = mget k m) by (intros k' d f m' N; unfold entry_update; rewrite mget_mupd; destruct (String.eqb_spec k k'); [congruence|]; destruct (mhas k' m'); [reflexivity|]; now apply mget_mset_ne).
  assert (E : mget k (mset "type" (JStr "object") m) = Some x).
  { rewrite mget_mset. destruct (String.eqb_spec k "type") as [->|]; [tauto|exact HX]. }
  destruct (_ && _); rewrite !HU by (intros ->; tauto); exact E.
Qed.

Lemma name_key c (v : variant rval) : v_name c v = v_key c v.
Proof. unfold v_name. now destruct c. Qed.
Lemma takes_part_included c (v : variant rval) : included (v_skip_de v) (v_skip_ser v) c = true <-> v_takes_part c v.
Proof. unfold included, v_takes_part. destruct c; rewrite negb_true_iff; tauto. Qed.

Section Post.
Context {St : Type}.
Variable items : nat -> item rval.
Variable S : settings St.
Variable seen : map_t -> Prop.
Notation c := (s_contract S).
Notation post_ := (Derivation.post S seen (fun _ _ => True) (fun _ _ => True)).
Variable tg : tagging.
Variable vs : list (variant rval).
Hypothesis HM : forall v, In v vs -> v_takes_part c v -> plain_meta (v_meta v).

Definition cq (v : variant rval) (e : json) : Prop := has_contents v -> exists s, fields_schema c tg v e s /\ contents_meta c (shared_keys tg v) (v_style v) s.

Lemma contents_post (Q : json -> Prop) (st : style rval) deny k : (forall s, contents_meta c [] st s -> post_ Q (k s)) -> post_ Q (style_prog false deny c st k).
Proof.
  intros H. destruct st as [|f|fs|fs].
  - apply style_any. intros s. now apply H.
  - cbn [style_prog]. now apply field_meta_post.
  - cbn [style_prog]. apply tuple_meta_post. intros ss HE. apply H. cbn [contents_meta]. intros HL _. exists ss. split; [exact HE|].
    destruct ss as [|x ss]; [|reflexivity]. inversion HE. congruence.
  - apply style_any. intros s. now apply H.
Qed.

Lemma untagged_contents v s : v_untagged v = true \/ tg = Untagged -> contents_meta c [] (v_style v) s -> cq v (insert_all (v_meta v) s).
Proof.
  intros HU H HC. exists (insert_all (v_meta v) s). split.
  - unfold fields_schema. destruct HU as [->| ->]; [reflexivity|]. now destruct (v_untagged v).
  - apply (contents_mono c _ _ s); [exact H|]. intros k x HN HX. apply get_insert_all; [|exact HX].
    unfold shared_keys in HN. destruct HU as [E|E]; rewrite E in HN; [exact HN|]. now destruct (v_untagged v).
Qed.

Lemma external_contents v s : In v vs -> v_takes_part c v -> v_untagged v = false -> tg = External -> contents_meta c [] (v_style v) s ->
  cq v (insert_all (v_meta v) (new_externally_tagged_enum_variant (v_name c v) s)).
Proof.
  intros Hv HT HU ET H HC. exists s. unfold shared_keys. rewrite HU, ET. split; [|exact H].
  unfold new_externally_tagged_enum_variant, obj.
  match goal with |- context [insert_all _ (JObj ?m)] => destruct (meta_get (v_meta v) m (HM v Hv HT)) as (m' & -> & HK) end.
  destruct kws_words as (K1 & K2 & _). apply HK in K1, K2. clear HK. unfold fields_schema. rewrite HU. rewrite name_key in K1, K2. split.
  - exists m', [(v_key c v, s)]. split; [reflexivity|]. split; [rewrite K1; reflexivity|]. cbn. now rewrite String.eqb_refl.
  - exists m', [JStr (v_key c v)]. split; [reflexivity|]. split; [rewrite K2; reflexivity|now left].
Qed.

Lemma adjacent_contents v s deny tag content : In v vs -> v_takes_part c v -> v_untagged v = false -> tg = Adjacent tag content -> contents_meta c [] (v_style v) s ->
  cq v (insert_all (v_meta v) (adjacent_schema deny tag content (v_name c v) (Some s))).
Proof.
  intros Hv HT HU ET H HC. exists s. unfold shared_keys. rewrite HU, ET. split; [|exact H]. unfold adjacent_schema, obj at 1.
  match goal with |- context [insert_all _ (JObj ?m)] => destruct (meta_get (v_meta v) m (HM v Hv HT)) as (m' & -> & HK) end.
  destruct kws_words as (K1 & K2 & _). apply HK in K1, K2. clear HK. unfold fields_schema. rewrite HU.
  assert (K2' : mget "required" m' = Some (JArr [JStr tag; JStr content])) by (rewrite K2; destruct deny; reflexivity).
  split; [|split].
  - exists m', (mk [(tag, obj [("type", JStr "string"); ("const", JStr (v_name c v))]); (content, s)]). split; [reflexivity|].
    split; [rewrite K1; destruct deny; reflexivity|]. apply mk_last.
  - exists m', [JStr tag; JStr content]. split; [reflexivity|]. split; [exact K2'|right; now left].
  - exists m', [JStr tag; JStr content]. split; [reflexivity|]. split; [exact K2'|now left].
Qed.

Lemma internal_contents v s deny tag : v_untagged v = false -> tg = Internal tag -> contents_meta c [] (v_style v) s ->
  cq v (insert_all (v_meta v) (apply_internal_tag tag (v_name c v) deny s)).
Proof.
  intros HU ET H HC. eexists. split; [unfold fields_schema; rewrite HU, ET; reflexivity|].
  apply (contents_mono c _ _ s); [exact H|]. intros k x HN HX. unfold shared_keys in HN. rewrite HU, ET in HN. rewrite in_app_iff in HN.
  apply get_insert_all; [tauto|]. apply tag_get; [tauto|exact HX].
Qed.

Lemma variants_contents (Q : json -> Prop) one : forall l k, incl l vs ->
  (forall v k', In v vs -> v_takes_part c v -> (forall s, cq v s -> post_ Q (k' s)) -> post_ Q (one v k')) ->
  (forall ss, (forall v, In v l -> v_takes_part c v -> exists s, In s ss /\ cq v s) -> post_ Q (k ss)) -> post_ Q (variants c one l k).
Proof.
  induction l as [|v l IH]; intros k HI HO HK; cbn [variants].
  { apply HK. intros v []. }
  assert (Hv : In v vs) by (apply HI; now left). assert (HI' : incl l vs) by (intros x Hx; apply HI; now right).
  destruct (included _ _ _) eqn:EI.
  - apply takes_part_included in EI. apply HO; auto. intros s Hs. apply IH; auto. intros ss Hss. apply HK.
    intros w [<-|Hw] HT; [exists s; split; [now left|exact Hs]|]. destruct (Hss w Hw HT) as (s' & H1 & H2). exists s'. split; [now right|exact H2].
  - apply IH; auto. intros ss Hss. apply HK. intros w [<-|Hw] HT; [|auto]. apply takes_part_included in HT. congruence.
Qed.

Lemma schemas_contents d l ss unique : plain_meta d -> (forall v, In v vs -> has_contents v -> In v l) -> forall more,
  (forall v, In v l -> v_takes_part c v -> exists s, In s ss /\ cq v s) -> tuple_variants c tg vs (insert_all d (variant_schemas unique l (more ++ ss))).
Proof.
  intros HD HL more HSs v Hv HT HC. destruct (HSs v (HL v Hv HC) HT) as (e & He & HQ). destruct (HQ HC) as (s & H1 & H2). unfold variant_schemas, obj.
  match goal with |- context [insert_all _ (JObj ?m)] => destruct (meta_get d m HD) as (m' & -> & H) end.
  destruct kws_words as (_ & _ & K1 & K2). apply H in K1, K2. exists (more ++ ss), e, s. split; [|split; [apply in_or_app; now right|now split]].
  exists m'. split; [reflexivity|]. destruct (unique && negb (existsb v_untagged l)); [left; rewrite K1|right; rewrite K2]; reflexivity.
Qed.

Lemma not_unit v : has_contents v -> v_is_unit v = false.
Proof. unfold has_contents, v_is_unit. now destruct (v_style v). Qed.

Lemma enum_contents d deny : plain_meta d -> post_ (tuple_variants c tg vs) (enum_prog items deny c tg vs (fun s => Ret (insert_all d s))).
Proof.
  intros HD. unfold enum_prog. remember vs as ws eqn:EV in |- *. destruct ws as [|v0 ws].
  { cbn [Derivation.post]. intros v []. }
  rewrite EV. clear v0 ws EV.
  assert (UP : forall v Q k', In v vs -> v_takes_part c v -> v_untagged v = true \/ tg = Untagged -> (forall s, cq v s -> post_ Q (k' s)) ->
    post_ Q (untagged_variant deny c v true k')).
  { intros v Q k' Hv HT HU HK. unfold untagged_variant. apply contents_post. intros s Hs. apply HK, untagged_contents; auto. }
  remember tg as tg0 eqn:ET in |- *. destruct tg0 as [| |tag|tag content].
  - assert (HL : forall v, In v vs -> has_contents v -> In v (filter (fun v => negb (plain_unit v)) vs))
      by (intros v Hv HC; apply filter_In; split; [exact Hv|unfold plain_unit; now rewrite not_unit]).
    destruct (filter (fun v => negb (plain_unit v)) vs) as [|v0 l0] eqn:EF.
    + cbn [Derivation.post]. intros v Hv HT HC. destruct (HL v Hv HC).
    + rewrite <- EF in *. rewrite ET. apply variants_contents.
      * intros v Hv. now apply filter_In in Hv as [Hv _].
      * intros v k' Hv HT HK. unfold external_variant. destruct (v_untagged v) eqn:EU; [now apply UP; auto|].
        destruct (v_is_unit v) eqn:EN.
        { apply HK. intros HC. apply not_unit in HC. congruence. }
        unfold untagged_variant. apply contents_post. intros s Hs. apply HK. apply external_contents; auto.
      * intros ss Hss. cbn [Derivation.post].
        destruct (filter plain_unit vs) eqn:EU; [apply (schemas_contents d _ ss true HD HL [])|apply (schemas_contents d _ ss true HD HL [_])]; auto.
  - rewrite ET. apply variants_contents; [apply incl_refl| |].
    + intros v k' Hv HT HK. apply UP; auto.
    + intros ss Hss. cbn [Derivation.post]. apply (schemas_contents d vs ss false HD) with (more := []); auto.
  - rewrite ET. apply variants_contents; [apply incl_refl| |].
    + intros v k' Hv HT HK. unfold internal_variant. destruct (v_untagged v) eqn:EU; [now apply UP; auto|]. cbv zeta.
      assert (HN : forall s, contents_meta c [] (v_style v) s -> post_ (tuple_variants c tg vs) (k' (insert_all (v_meta v) (apply_internal_tag tag (v_name c v) deny s))))
        by (intros s H; apply HK, internal_contents; auto).
      destruct (v_style v) as [|f|fs|fs] eqn:ES.
      * cbn [unit_prog Derivation.post]. intros s _. now apply HN.
      * destruct (f_required f); [now apply field_meta_post|]. cbn [Derivation.post]. intros s _.
        destruct (for_internal_newtype _ _ _) as [s' [|]]; [apply HN, mutators_meta|cbn [Derivation.post]; intros; apply HN, mutators_meta].
      * exact (contents_post _ (Tuple fs) deny (fun s => k' (insert_all (v_meta v) (apply_internal_tag tag (v_name c v) deny s))) HN).
      * exact (contents_post _ (Struct fs) deny (fun s => k' (insert_all (v_meta v) (apply_internal_tag tag (v_name c v) deny s))) HN).
    + intros ss Hss. cbn [Derivation.post]. apply (schemas_contents d vs ss true HD) with (more := []); auto.
  - rewrite ET. apply variants_contents; [apply incl_refl| |].
    + intros v k' Hv HT HK. unfold adjacent_variant. destruct (v_untagged v) eqn:EU; [now apply UP; auto|].
      destruct (v_is_unit v) eqn:EN.
      { apply HK. intros HC. apply not_unit in HC. congruence. }
      unfold untagged_variant. apply contents_post. intros s Hs. apply HK. apply adjacent_contents; auto.
    + intros ss Hss. cbn [Derivation.post]. apply (schemas_contents d vs ss true HD) with (more := []); auto.
Qed.
End Post.

Lemma derives_contents St (items : nat -> item rval) (s : settings St) R ans seen i cs ts tg vs d :
  d_data (it_decl (items i) cs ts) = DEnum tg vs -> plain_variants (s_contract s) (it_decl (items i) cs ts) vs ->
  derives (info items) R s ans seen (TAdt i cs ts) d -> tuple_variants (s_contract s) tg vs d.
Proof.
  intros HD [HM1 HM2] H. inversion H as [t0 s0 HRun]; subst. cbn [info t_body body] in HRun. inversion HRun as [|?|?|?|k s1 HRun' Y1 Y2|?]; subst.
  apply (run_post (info items) R s ans seen (fun _ _ => True) (fun _ _ => True)) with (Q := tuple_variants (s_contract s) tg vs) in HRun'; auto.
  unfold decl_prog. rewrite HD. cbn [data_prog]. now apply enum_contents.
Qed.

(** ** Theorems *)
Theorem C69_tuple_variant_partial : forall St (items : nat -> item rval) tok c (s : settings St) st fuel i cs ts doc tg vs,
  plain_settings tok c s -> root_document items s st fuel (TAdt i cs ts) doc ->
  d_data (it_decl (items i) cs ts) = DEnum tg vs -> plain_variants c (it_decl (items i) cs ts) vs -> tuple_variants c tg vs doc.
Proof.
  intros St items tok c s st fuel i cs ts doc tg vs HS [g' HR] HD HP.
  destruct (root_derives (info items) (reach items (TAdt i cs ts)) fuel (TAdt i cs ts) s st doc g') as (gf & sch & H1 & H2 & H3 & _); auto.
  { apply reach_closed. } { apply reach_refl. } { apply (ps_transforms _ _ _ HS). }
  pose proof (ps_contract _ _ _ HS) as HC. subst c. unfold derives_f in H2. rewrite H1 in H2.
  pose proof (derives_contents _ _ _ _ _ _ _ _ _ _ _ _ HD HP H2) as HE.
  assert (K : forall key, In key (kws ++ ctx) -> mget key (add_definitions (s_path s) (root_object (info items) (TAdt i cs ts) s sch) (g_defs gf)) = mget key (ensure_obj sch)).
  { intros key Hk. now rewrite (root_keeps_key items tok s _ HS) by exact Hk. }
  assert (K1 : In "oneOf" (kws ++ ctx) /\ In "anyOf" (kws ++ ctx)) by (split; apply (existsb_In _ (kws ++ ctx)); vm_compute; reflexivity).
  destruct K1 as [K1 K2]. apply K in K1, K2. clear K.
  intros v Hv HT HH. destruct (HE v Hv HT HH) as (l & e & x & (m & -> & Hl) & Hd). exists l, e, x. split; [|exact Hd].
  exists (add_definitions (s_path s) (root_object (info items) (TAdt i cs ts) s (JObj m)) (g_defs gf)). split; [now rewrite H3|].
  cbn [ensure_obj ensure_object] in K1, K2. rewrite K1, K2. exact Hl.
Qed.
Print Assumptions C69_tuple_variant_partial.

(** The same for the enums in definitions *)
Theorem C69_tuple_variant_definition_partial : forall St (items : nat -> item rval) c (s : settings St) st fuel t doc g' n d,
  s_contract s = c -> s_transforms s = [] -> own_ids items t ->
  root_schema_for (info items) (json_schema (info items) fuel) t (new_gen s st) = Some (doc, g') -> mget n (g_defs g') = Some d ->
  exists u, reach items t u /\ named_after items n u
    /\ forall i cs ts tg vs, unwrap u = TAdt i cs ts -> d_data (it_decl (items i) cs ts) = DEnum tg vs -> plain_variants c (it_decl (items i) cs ts) vs ->
         tuple_variants c tg vs d.
Proof.
  intros St items c s st fuel t doc g' n d <- HS HId HR HN.
  destruct (definition_of _ _ _ _ _ _ _ _ _ _ HS HId HR HN) as (u & R & ans & seen & Hu & HNm & HD). exists u. split; [exact Hu|]. split; [exact HNm|].
  intros i cs ts tg vs HX HE HP. rewrite HX in HD. exact (derives_contents _ _ _ _ _ _ _ _ _ _ _ _ HE HP HD).
Qed.
Print Assumptions C69_tuple_variant_definition_partial.

(** ** Example *)
(** enum T { /// A wait
             Wait(/// From
                  u8), Range(/// From
                  u8, #[serde(skip_serializing)] String, #[schemars(extend("x-unit" = "s"))] u8) } *)
Definition wait : variant rval := Variant "Wait" "Wait" false false false (Newtype from_field) [("description", JStr "A wait")].
Definition range : variant rval := Variant "Range" "Range" false false false (Tuple [from_field; key_field; unit_field]) [].
Definition wait_prog := one_item (Decl false (DEnum External [wait; range]) []).
Example C69_tuple_variant_example :
  plain_settings "$defs" Serialize ex_settings
  /\ root_document wait_prog ex_settings tt 20 (TAdt 0 [] []) (doc_for Serialize wait_prog)
  /\ d_data (it_decl (wait_prog 0) [] []) = DEnum External [wait; range]
  /\ plain_variants Serialize (it_decl (wait_prog 0) [] []) [wait; range]
  /\ (forall v, In v [wait; range] -> v_takes_part Serialize v /\ has_contents v)
  /\ s_get "oneOf" (doc_for Serialize wait_prog) = Some (JArr
       [obj [("type", JStr "object"); ("description", JStr "A wait"); ("properties", obj [("Wait", u8_schema [("description", JStr "From")])]);
             ("required", JArr [JStr "Wait"]); ("additionalProperties", JBool false)];
        obj [("type", JStr "object"); ("required", JArr [JStr "Range"]); ("additionalProperties", JBool false);
             ("properties", obj [("Range", obj [("type", JStr "array"); ("maxItems", jz 2); ("minItems", jz 2);
                ("prefixItems", JArr [u8_schema [("description", JStr "From")]; u8_schema [("readOnly", JBool true); ("x-unit", JStr "s")]])])])]]).
Proof.
  split; [apply ex_plain|]. split; [eexists; vm_compute; reflexivity|]. split; [reflexivity|]. split; [|split].
  - split; [intros k x []|]. intros v [<-|[<-|[]]] _ k x H; [|destruct H]. destruct H as [[= <- <-]|[]].
    split; intros H; apply (In_existsb "description") in H; vm_compute in H; discriminate.
  - intros v [<-|[<-|[]]]; split; exact eq_refl || exact I.
  - vm_compute. reflexivity.
Qed.
