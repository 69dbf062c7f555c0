(** Property theorems C69 for the fields of newtype and tuple structs.

    [says]: Metadata.v; [own_ids], [named_after]: Properties_Default.v *)
From Coq Require Import String Ascii List ZArith Bool Lia.
From Verif Require Import ValidationAttrs ValidationProofs Json JsonFacts Utf8 Encoding EncodingProofs SchemaApi Transform Validate ValidateFacts ValidateKw Pointer
  PointerProofs Private PrivateProps ShapeFacts PrivateFlatten Generate GenerateDoc SerValue Types TypesShape Serde SerdeFacts Derivation Properties_Root SoundBase SoundStruct SoundTypes SoundAdt
  TypeId Sound Required RequiredDerive RequiredSerde RequiredVariants Defaults Metadata Properties_Sound Properties_Required Properties_Default Properties_Metadata.
Import ListNotations.
Open Scope string_scope.
Open Scope list_scope.

(** ** Specification *)
(** The schema [s] has what is attached to the field [f], except where its attributes that have a meaning of their own set the
    same key, and [but]. *)
Definition has_meta (but : list string) (f : field rval) (s : json) : Prop :=
  (forall k x, says (f_meta f) k x -> ~ In k (["items"; "default"; "readOnly"; "writeOnly"] ++ validation_keywords) -> ~ In k but -> s_get k s = Some x)
  /\ (f_skip_de f = true -> ~ In "readOnly" but -> s_get "readOnly" s = Some (JBool true))
  /\ (f_skip_ser f = true -> ~ In "writeOnly" but -> s_get "writeOnly" s = Some (JBool true)).
(** The fields of a tuple that take part, and the schemas of the elements of the array *)
Definition taking (c : contract) (fs : list (field rval)) : list (field rval) :=
  filter (fun f => negb (match c with Serialize => f_skip_ser f | Deserialize => f_skip_de f end)) fs.
Definition element_schemas (c : contract) (fs : list (field rval)) (l : list json) : Prop := Forall2 (has_meta []) (taking c fs) l.

Lemma mutators_meta (f : field rval) s : has_meta [] f (field_mutators f s).
Proof.
  set (f' := Field (f_ser f) (f_de f) (f_ty f) (f_skip_ser f) (f_skip_de f) (f_skip_if f) false None (f_flatten f) (f_valid f) (f_meta f)).
  destruct (field_carries false f' s) as (H1 & H2 & H3).
  assert (E : insert_default false f' (field_mutators f' s) = field_mutators f s).
  { unfold insert_default. cbn. now rewrite orb_true_r. }
  rewrite E in H1, H2, H3. split; [|split; auto].
  intros k x HS HN _. now apply H1.
Qed.

Section Post.
Context {St : Type}.
Variable S : settings St.
Variable seen : map_t -> Prop.
Notation post_ := (Derivation.post S seen (fun _ _ => True) (fun _ _ => True)).
Lemma field_meta_post (f : field rval) (Q : json -> Prop) k : (forall s, has_meta [] f s -> post_ Q (k s)) -> post_ Q (field_schema f k).
Proof. intros H. unfold field_schema. destruct (f_required f); cbn [Derivation.post]; intros s _; apply H, mutators_meta. Qed.
Lemma tuple_meta_post (Q : json -> Prop) : forall (fs : list (field rval)) k,
  (forall ss, element_schemas (s_contract S) fs ss -> post_ Q (k ss)) -> post_ Q (tuple_fields (s_contract S) fs k).
Proof.
  induction fs as [|f fs IH]; intros k H; cbn [tuple_fields].
  - apply H. constructor.
  - assert (EI : included (f_skip_de f) (f_skip_ser f) (s_contract S) = negb (match s_contract S with Serialize => f_skip_ser f | Deserialize => f_skip_de f end))
      by (unfold included; now destruct (s_contract S)).
    destruct (included _ _ _) eqn:ED.
    + apply field_meta_post. intros s Hs. apply IH. intros ss HF. apply H. unfold element_schemas, taking in *. cbn [filter]. rewrite <- EI. now constructor.
    + apply IH. intros ss HF. apply H. unfold element_schemas, taking in *. cbn [filter]. now rewrite <- EI.
Qed.
End Post.

(** What is claimed of the schema [d] of a newtype or tuple struct *)
Definition tuple_meta (c : contract) (own : list (string * json)) (st : style rval) (but : list string) (d : json) : Prop :=
  match st with
  | Newtype f => has_meta (but ++ map fst own) f d
  | Tuple fs => ~ In "prefixItems" (but ++ map fst own) -> taking c fs <> [] -> exists l, element_schemas c fs l /\ s_get "prefixItems" d = Some (JArr l)
  | _ => True
  end.

Lemma derives_tuple St (items : nat -> item rval) (s : settings St) R ans seen i cs ts def st d :
  d_data (it_decl (items i) cs ts) = DStruct def st -> derives (info items) R s ans seen (TAdt i cs ts) d ->
  tuple_meta (s_contract s) (d_meta (it_decl (items i) cs ts)) st [] d.
Proof.
  intros HD H. inversion H as [t0 s0 HRun]; subst. cbn [info t_body body] in HRun. inversion HRun as [|?|?|?|k s1 HRun' Y1 Y2|?]; subst.
  apply (run_post (info items) R s ans seen (fun _ _ => True) (fun _ _ => True)) with (Q := tuple_meta (s_contract s) (d_meta (it_decl (items i) cs ts)) st []) in HRun'; auto.
  unfold decl_prog. rewrite HD. cbn [data_prog]. destruct st as [|f|fs|fs].
  - apply style_any. cbn. auto.
  - cbn [style_prog]. apply field_meta_post. intros x (H1 & H2 & H3). cbn [Derivation.post tuple_meta app].
    split; [|split]; intros; apply get_insert_all; auto.
  - cbn [style_prog]. apply tuple_meta_post. intros ss HE. cbn [Derivation.post tuple_meta app]. intros HN HL. exists ss. split; [exact HE|].
    apply get_insert_all; [exact HN|]. destruct ss as [|x ss]; [|reflexivity]. inversion HE. congruence.
  - apply style_any. cbn. auto.
Qed.

(** ** Theorems *)
Theorem C69_tuple_partial : forall St (items : nat -> item rval) tok c (s : settings St) st fuel i cs ts doc def sty,
  plain_settings tok c s -> root_document items s st fuel (TAdt i cs ts) doc -> d_data (it_decl (items i) cs ts) = DStruct def sty ->
  tuple_meta c (d_meta (it_decl (items i) cs ts)) sty ["$schema"; tok] doc.
Proof.
  intros St items tok c s st fuel i cs ts doc def sty HS [g' HR] HD.
  destruct (root_derives (info items) (reach items (TAdt i cs ts)) fuel (TAdt i cs ts) s st doc g') as (gf & sch & H1 & H2 & H3 & _); auto.
  { apply reach_closed. } { apply reach_refl. } { apply (ps_transforms _ _ _ HS). }
  pose proof (ps_contract _ _ _ HS) as HC. subst c. unfold derives_f in H2. rewrite H1 in H2. apply (derives_tuple _ _ _ _ _ _ _ _ _ _ _ _ HD) in H2.
  assert (HK : forall k x, ~ In k (["$schema"; tok] ++ map fst (d_meta (it_decl (items i) cs ts))) -> s_get k sch = Some x -> s_get k doc = Some x).
  { intros k x HN HX. cbn [app In] in HN. rewrite H3. cbn [s_get].
    rewrite (root_object_of (info items) (TAdt i cs ts) s sch (g_defs gf) (s_path s) (ps_path _ _ _ HS) k).
    - assert (HE : mget k (ensure_obj sch) = Some x) by (destruct sch; try discriminate HX; exact HX).
      destruct (String.eqb_spec k "$schema") as [->|]; [tauto|]. destruct (String.eqb_spec k "title") as [->|]; [now rewrite HE|exact HE].
    - intros a more HA. destruct (ps_tok _ _ _ HS) as [more' HT]. rewrite HT in HA. injection HA as <- <-. intros ->. apply HN. auto. }
  destruct sty as [|f|fs|fs]; cbn [tuple_meta] in *; auto.
  - destruct H2 as (A1 & A2 & A3). unfold has_meta. cbn [app In] in *. split; [|split].
    + intros k x HX HN HN2. apply HK; [tauto|]. apply A1; tauto.
    + intros HF HN. apply HK; [tauto|]. apply A2; tauto.
    + intros HF HN. apply HK; [tauto|]. apply A3; tauto.
  - intros HN HL. cbn [app In] in *. destruct (H2 ltac:(tauto) HL) as (l & HE & HG). exists l. split; [exact HE|]. now apply HK.
Qed.
Print Assumptions C69_tuple_partial.

Theorem C69_tuple_definition_partial : forall St (items : nat -> item rval) c (s : settings St) st fuel t doc g' n d,
  s_contract s = c -> s_transforms s = [] -> own_ids items t ->
  root_schema_for (info items) (json_schema (info items) fuel) t (new_gen s st) = Some (doc, g') -> mget n (g_defs g') = Some d ->
  exists u, reach items t u /\ named_after items n u
    /\ forall i cs ts def sty, unwrap u = TAdt i cs ts -> d_data (it_decl (items i) cs ts) = DStruct def sty ->
         tuple_meta c (d_meta (it_decl (items i) cs ts)) sty [] d.
Proof.
  intros St items c s st fuel t doc g' n d <- HS HId HR HN.
  destruct (definition_of _ _ _ _ _ _ _ _ _ _ HS HId HR HN) as (u & R & ans & seen & Hu & HNm & HD). exists u. split; [exact Hu|]. split; [exact HNm|].
  intros i cs ts def sty HX HE. rewrite HX in HD. exact (derives_tuple _ _ _ _ _ _ _ _ _ _ _ _ HE HD).
Qed.
Print Assumptions C69_tuple_definition_partial.

(** ** Example *)
(** struct T(/// From
             u8, #[serde(skip_serializing)] String, #[schemars(extend("x-unit" = "s"))] u8), and struct T(/// Inside
             u8) *)
Definition from_field : field rval := Field "0" "0" (TInt U8) false false None false None false no_vattrs [("description", JStr "From")].
Definition unit_field : field rval := Field "2" "2" (TInt U8) false true None false None false no_vattrs [("x-unit", JStr "s")].
Definition tuple_decl : decl rval := Decl false (DStruct false (Tuple [from_field; key_field; unit_field])) [].
Definition u8_schema (more : list (string * json)) : json := obj (more ++ [("format", JStr "uint8"); ("maximum", JNum (NInt 255)); ("minimum", JNum (NInt 0)); ("type", JStr "integer")]).
Example C69_tuple_example :
  plain_settings "$defs" Serialize ex_settings
  /\ root_document (one_item tuple_decl) ex_settings tt 20 (TAdt 0 [] []) (doc_for Serialize (one_item tuple_decl))
  /\ taking Serialize [from_field; key_field; unit_field] = [from_field; unit_field]
  /\ s_get "prefixItems" (doc_for Serialize (one_item tuple_decl)) = Some (JArr
       [u8_schema [("description", JStr "From")]; u8_schema [("readOnly", JBool true); ("x-unit", JStr "s")]])
  /\ let items := one_item (Decl false (DStruct false (Newtype from_field)) []) in
     root_document items ex_settings tt 20 (TAdt 0 [] []) (doc_for Serialize items) /\ s_get "description" (doc_for Serialize items) = Some (JStr "From").
Proof.
  split; [apply ex_plain|]. split; [eexists; vm_compute; reflexivity|]. split; [reflexivity|].
  split; [vm_compute; reflexivity|]. cbv zeta. split; [eexists; vm_compute; reflexivity|vm_compute; reflexivity].
Qed.
