(** Property theorems C53, continued: no name is in "required" twice, in documents and definitions.

    [all_distinct], [within_flat], [field_has]: Required.v; [required_once]: RequiredVariants.v; [plain_structs]: Properties_Required.v;
    [own_ids], [named_after]: Properties_Default.v *)
From Coq Require Import String Ascii List ZArith Bool Lia.
From Verif Require Import ValidationAttrs Json JsonFacts Utf8 Encoding EncodingProofs SchemaApi Transform Validate ValidateFacts ValidateKw Pointer
  PointerProofs Private PrivateProps ShapeFacts PrivateFlatten Generate GenerateDoc SerValue Types TypesShape Serde SerdeFacts Derivation Properties_Root SoundBase SoundStruct SoundTypes SoundAdt
  TypeId Sound Required RequiredDerive RequiredSerde RequiredVariants Defaults Properties_Sound Properties_Required Properties_Default.
Import ListNotations.
Open Scope string_scope.
Open Scope list_scope.

Lemma struct_once St (items : nat -> item rval) (s : settings St) R ans seen t d :
  plain_structs items (s_contract s) t -> all_distinct items (s_contract s) t -> derives (info items) R s ans seen t d ->
  exists m, d = JObj m /\ NoDup (required_of m).
Proof.
  intros [(i & cs & ts & def & fs & -> & HD) HP] HA H. apply derives_any in H.
  destruct (derives_well items s _ _ _ (TAdt i cs ts) d HP I H (WithinSelf _ _ _) i cs ts def fs eq_refl HD) as (m & -> & HQ & _).
  exists m. split; [reflexivity|]. apply (rq_once _ _ _ _ _ HQ).
  - apply (HA i cs ts def fs); [constructor|exact HD].
  - intros f Hf HT HF i' cs' ts' df fs' HW. apply HA. eapply within_trans; [|exact HW]. eapply WithinFlat; eauto. constructor.
Qed.

(** Structs in which, with all that is flattened into them, no two fields have a property of the same name *)
Theorem C53_required_once_partial : forall St (items : nat -> item rval) tok c (s : settings St) st fuel t doc,
  plain_settings tok c s -> plain_structs items c t -> all_distinct items c t -> root_document items s st fuel t doc -> required_once doc.
Proof.
  intros St items tok c s st fuel t doc HS HP HA [g' HR] l HL.
  destruct (root_derives (info items) (reach items t) fuel t s st doc g') as (gf & sch & H1 & H2 & H3 & _); auto.
  { apply reach_closed. } { apply reach_refl. } { apply (ps_transforms _ _ _ HS). }
  pose proof (ps_contract _ _ _ HS) as HC. subst c. unfold derives_f in H2. rewrite H1 in H2.
  destruct (struct_once _ _ _ _ _ _ _ _ HP HA H2) as (m & -> & HN).
  assert (HG : mget "required" m = Some (JArr l)).
  { rewrite <- HL, H3. cbn [s_get]. rewrite (root_keeps_key items tok s _ HS); [reflexivity|]. apply (existsb_In _ (kws ++ ctx)). vm_compute. reflexivity. }
  unfold required_of in HN. now rewrite HG in HN.
Qed.
Print Assumptions C53_required_once_partial.

(** The definitions of such structs *)
Theorem C53_required_once_definition_partial : forall St (items : nat -> item rval) c (s : settings St) st fuel t doc g' n d,
  s_contract s = c -> s_transforms s = [] -> own_ids items t ->
  root_schema_for (info items) (json_schema (info items) fuel) t (new_gen s st) = Some (doc, g') -> mget n (g_defs g') = Some d ->
  exists u, reach items t u /\ named_after items n u /\ (plain_structs items c (unwrap u) -> all_distinct items c (unwrap u) -> required_once d).
Proof.
  intros St items c s st fuel t doc g' n d <- HS HId HR HN.
  destruct (definition_of _ _ _ _ _ _ _ _ _ _ HS HId HR HN) as (u & R & ans & seen & Hu & HNm & HD). exists u. split; [exact Hu|]. split; [exact HNm|].
  intros HP HA l HL. destruct (struct_once _ _ _ _ _ _ _ _ HP HA HD) as (m & -> & HO). cbn [s_get] in HL. unfold required_of in HO. now rewrite HL in HO.
Qed.
Print Assumptions C53_required_once_definition_partial.

(** ** Example *)
(** The struct Opts of Properties_Default.v, into which Pos is flattened: "level", "note" and "x" are distinct. *)
Lemma opt_distinct c : all_distinct opt_prog c opts.
Proof.
  intros i cs ts def fs HW HD. apply opt_within in HW.
  assert (HP : forall k, field_has opt_prog c (flat "pos" (TAdt 1 [] [])) k -> k = "x").
  { intros k H. inversion H as [g HG|g k' HG HX]; subst; [discriminate HG|]. inversion HX as [n cs0 ts0 def0 fs0 f' k0 HD0 Hf HT Hk]; subst.
    cbn in HD0. injection HD0 as <- <-. destruct Hf as [<-|[]]. inversion Hk as [g' HG'|g' k' HG' HX']; subst; [now destruct c|discriminate HG']. }
  assert (HO : forall k, field_has opt_prog c opt_note k -> k = "note").
  { intros k H. inversion H as [g HG|g k' HG HX]; subst; [now destruct c|discriminate HG]. }
  assert (HL : forall k, field_has opt_prog c opt_level k -> k = "level").
  { intros k H. inversion H as [g HG|g k' HG HX]; subst; [now destruct c|discriminate HG]. }
  destruct HW as [[= <- <- <-]|[[= <- <- <-]|[]]]; cbn in HD; injection HD as <- <-; intros l1 f l2 g l3 HE _ _ k H1 H2.
  - destruct l1 as [|? l1]; injection HE as <- HE; [|destruct l1 as [|? l1]; injection HE as <- HE; [|destruct l1 as [|? l1]; injection HE as <- HE]].
    + destruct l2 as [|? l2]; injection HE as <- HE; [apply HL in H1; apply HO in H2; congruence|].
      destruct l2 as [|? l2]; injection HE as <- HE; [apply HL in H1; apply HP in H2; congruence|]. now destruct l2.
    + destruct l2 as [|? l2]; injection HE as <- HE; [apply HO in H1; apply HP in H2; congruence|]. now destruct l2.
    + now destruct l2.
    + now destruct l1.
  - destruct l1 as [|? l1]; injection HE as <- HE; [now destruct l2|]. now destruct l1.
Qed.
Example C53_once_example :
  plain_settings "$defs" Serialize ex_settings /\ plain_structs opt_prog Serialize opts /\ all_distinct opt_prog Serialize opts
  /\ root_document opt_prog ex_settings tt 20 opts (opt_doc Serialize)
  /\ s_get "required" (opt_doc Serialize) = Some (JArr [JStr "level"; JStr "x"]).
Proof.
  split; [apply ex_plain|]. split; [apply opt_plain|]. split; [apply opt_distinct|]. split; [eexists; vm_compute; reflexivity|vm_compute; reflexivity].
Qed.
