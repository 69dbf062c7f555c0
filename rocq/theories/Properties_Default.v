(** Property theorems C68: the "default" of the properties of a struct.

    Which value a field's default is given as is modelled in Defaults.v, following the derive macro;
    the theorems relate it to what serialization writes (Serde.v [value_json]) and to what the schema
    of the property accepts (Validate.v). *)
From Coq Require Import String Ascii List ZArith Bool Lia.
From Verif Require Import ValidationAttrs Json JsonFacts Utf8 Encoding EncodingProofs SchemaApi Transform Validate ValidateFacts ValidateKw Pointer
  PointerProofs Private PrivateProps ShapeFacts PrivateFlatten Generate GenerateDoc SerValue Types TypesShape Serde SerdeFacts Derivation Properties_Root SoundBase SoundStruct SoundTypes SoundAdt
  TypeId Sound Required RequiredDerive RequiredSerde RequiredVariants Defaults Properties_Sound Properties_Required.
Import ListNotations.
Open Scope string_scope.
Open Scope list_scope.

(** ** Specification *)
(** A field with a default of its own or of the struct, which can be serialized *)
Definition has_default {X} (container_default : bool) (f : field X) : Prop :=
  (f_default f = true \/ container_default = true) /\ f_skip_ser f = false.
(** The field is left out when it holds [d]. *)
Definition left_out (f : field rval) (d : rval) : Prop := exists p, f_skip_if f = Some p /\ p d = true.
(** [d] is the default of [f], and its type implements Serialize. *)
Definition defaults_to (items : nat -> item rval) (text_ok : checks) (container_default : bool) (f : field rval) (d : rval) : Prop :=
  f_default_value f = default_json items text_ok true container_default f d.

(** [f] is a named field of the struct [t], and no field after it has a property of that name. *)
Definition names_property (items : nat -> item rval) (c : contract) (t : rty) (def : bool) (f : field rval) : Prop :=
  exists i cs ts l1 l2, t = TAdt i cs ts /\ d_data (it_decl (items i) cs ts) = DStruct def (Struct (l1 ++ f :: l2)) /\
    f_flatten f = false /\ takes_part c f /\ unshadowed items c f l2.

Lemma insert_default_get def (f : field rval) d s : has_default def f -> f_default_value f = Some d -> s_get "default" (insert_default def f s) = Some d.
Proof.
  intros [HD HS] HV. unfold insert_default. rewrite HS, HV. replace (def || f_default f) with true by (destruct HD as [-> | ->]; now rewrite ?orb_true_r).
  cbn [orb negb]. unfold insert. cbn [s_get]. now rewrite mget_mset.
Qed.

Lemma default_property St (items : nat -> item rval) tok c (s : settings St) st fuel t doc def f :
  plain_settings tok c s -> root_document items s st fuel t doc -> plain_structs items c t -> names_property items c t def f ->
  exists sub, property_is doc (key c f) (insert_default def f (field_mutators f sub)).
Proof.
  intros HS [g' HR] [_ HP] (i & cs & ts & l1 & l2 & -> & HD & HF & HT & HU).
  destruct (root_derives (info items) (reach items (TAdt i cs ts)) fuel (TAdt i cs ts) s st doc g') as (gf & sch & H1 & H2 & H3 & _); auto.
  { apply reach_closed. } { apply reach_refl. } { apply (ps_transforms _ _ _ HS). }
  pose proof (ps_contract _ _ _ HS) as HC. subst c.
  unfold derives_f in H2. rewrite H1 in H2.
  destruct (derives_default items s _ _ _ i cs ts def l1 f l2 sch HP HD HT HF HU H2) as (m & sub & -> & HG).
  exists sub. unfold props_of in HG. destruct (mget "properties" m) as [[| | | | |ps]|] eqn:EP; try discriminate HG.
  eexists _, ps. split; [exact H3|]. split; [|exact HG]. rewrite (root_keeps_key items tok s _ HS); [exact EP|].
  apply (existsb_In _ (kws ++ ctx)). vm_compute. reflexivity.
Qed.

(** The same in definitions: each is named after a type that is reached from the root, perhaps with a number. Types other than
    forwarding ones like Box must have different ids. *)
Definition own_ids (items : nat -> item rval) (t : rty) : Prop := forall u u',
  reach items t u -> reach items t u' -> type_inline items u = false -> type_id items u = type_id items u' -> unwrap u = unwrap u'.
Definition named_after (items : nat -> item rval) (n : string) (u : rty) : Prop :=
  type_inline items u = false /\ (n = type_name items u \/ exists i, n = numbered (type_name items u) i).
Lemma definition_of St (items : nat -> item rval) (s : settings St) st fuel t doc g' n d :
  s_transforms s = [] -> own_ids items t -> root_schema_for (info items) (json_schema (info items) fuel) t (new_gen s st) = Some (doc, g') ->
  mget n (g_defs g') = Some d ->
  exists u R ans seen, reach items t u /\ named_after items n u /\ derives (info items) R s ans seen (unwrap u) d.
Proof.
  intros HS HId HR HN.
  destruct (root_derives_defs (info items) (reach items t) fuel t s st doc g') as (gf & sch & H1 & H2 & H3 & H4 & H5 & H6 & _ & _ & H9); auto.
  { apply reach_closed. } { apply reach_refl. }
  rewrite <- H9 in HN. destruct (H4 n d HN) as (w & HW & HI & HU & HD). destruct (H6 _ _ HU) as (u & Hu & HIu & HNm & HE).
  assert (HX : unwrap w = unwrap u) by (symmetry; apply HId; assumption).
  unfold derives_f in HD. rewrite H1 in HD. apply derives_unwrap in HD. rewrite HX in HD.
  exists u. eexists _, _, _. split; [exact Hu|]. split; [split; assumption|exact HD].
Qed.
Lemma definition_property St (items : nat -> item rval) (s : settings St) R ans seen t d def f :
  plain_structs items (s_contract s) t -> names_property items (s_contract s) t def f -> derives (info items) R s ans seen t d ->
  exists sub, property_is d (key (s_contract s) f) (insert_default def f (field_mutators f sub)).
Proof.
  intros [_ HP] (i & cs & ts & l1 & l2 & -> & HD & HF & HT & HU) H.
  destruct (derives_default items s _ _ _ i cs ts def l1 f l2 d HP HD HT HF HU H) as (m & sub & -> & HG).
  exists sub. unfold props_of in HG. destruct (mget "properties" m) as [[| | | | |ps]|] eqn:EP; try discriminate HG.
  eexists _, ps. split; [reflexivity|]. split; [exact EP|exact HG].
Qed.

(** ** The default given is what serialization writes for it *)
(** The schema of the property of a field with a default has as its "default" what serialization writes
    for the default, unless the field is left out when it holds its default. *)
Theorem C68_default_partial : forall St (items : nat -> item rval) text_ok tok c (s : settings St) st fuel t doc def f d j,
  plain_settings tok c s -> plain_structs items c t -> root_document items s st fuel t doc ->
  names_property items c t def f -> defaults_to items text_ok def f d ->
  has_default def f -> ~ left_out f d -> value_json items text_ok false (f_ty f) d = Some j ->
  exists sub, property_is doc (key c f) sub /\ s_get "default" sub = Some j.
Proof.
  intros St items text_ok tok c s st fuel t doc def f d j HS HP HR HN HV HD HL HJ.
  destruct (default_property _ _ _ _ _ _ _ _ _ _ _ HS HR HP HN) as (sub & H). eexists. split; [exact H|]. apply insert_default_get; [exact HD|].
  rewrite HV. unfold default_json, field_default_expr. destruct HD as [HD ->]. cbn [orb].
  replace (negb (f_default f) && negb def) with false by (destruct HD as [-> | ->]; now rewrite ?andb_false_r).
  destruct (f_skip_if f) as [p|] eqn:EP; [|exact HJ]. destruct (p d) eqn:ED; [|exact HJ]. elim HL. now exists p.
Qed.
Print Assumptions C68_default_partial.

(** The structs in definitions *)
Theorem C68_definition_partial : forall St (items : nat -> item rval) text_ok c (s : settings St) st fuel t doc g' n e,
  s_contract s = c -> s_transforms s = [] -> own_ids items t ->
  root_schema_for (info items) (json_schema (info items) fuel) t (new_gen s st) = Some (doc, g') -> mget n (g_defs g') = Some e ->
  exists u, reach items t u /\ named_after items n u
    /\ forall def f d j, plain_structs items c (unwrap u) -> names_property items c (unwrap u) def f -> defaults_to items text_ok def f d ->
         has_default def f -> ~ left_out f d -> value_json items text_ok false (f_ty f) d = Some j ->
         exists sub, property_is e (key c f) sub /\ s_get "default" sub = Some j.
Proof.
  intros St items text_ok c s st fuel t doc g' n e <- HS HId HR He.
  destruct (definition_of _ _ _ _ _ _ _ _ _ _ HS HId HR He) as (u & R & ans & seen & Hu & HN & HD). exists u. split; [exact Hu|]. split; [exact HN|].
  intros def f d j HP HNm HV HDf HL HJ. destruct (definition_property _ _ _ _ _ _ _ _ _ _ HP HNm HD) as (sub & H). eexists. split; [exact H|].
  apply insert_default_get; [exact HDf|]. rewrite HV. unfold default_json, field_default_expr. destruct HDf as [HDf ->]. cbn [orb].
  replace (negb (f_default f) && negb def) with false by (destruct HDf as [-> | ->]; now rewrite ?andb_false_r).
  destruct (f_skip_if f) as [p|] eqn:EP; [|exact HJ]. destruct (p d) eqn:ED; [|exact HJ]. elim HL. now exists p.
Qed.
Print Assumptions C68_definition_partial.

(** ** The default is accepted *)
(** [d] fits the field: serialization writes [j] for it, it is present if the field is marked [required],
    and it meets the validation attributes of the field. *)
Record fits (items : nat -> item rval) (text_ok : checks) (f : field rval) (d : rval) (j : json) : Prop := {
  fit_json : value_json items text_ok true (f_ty f) d = Some j;
  fit_present : f_required f = true -> present (f_ty f) d = true;
  fit_valid : meets text_ok (f_valid f) j = true }.

Lemma fits_ser items text_ok f d j : f_flatten f = false -> fits items text_ok f d j ->
  exists w, ser_field text_ok true f (d, ser items text_ok true d) = Some w /\ to_json w = Some j.
Proof.
  intros HF [H1 H2 H3]. unfold value_json in H1. destruct (ser items text_ok true d (f_ty f)) as [w|] eqn:EW; [|discriminate].
  exists w. split; [|exact H1]. unfold ser_field, ser_checked. cbn [fst snd andb]. rewrite EW, HF, (to_json_json_of _ _ H1), H3.
  destruct (f_required f); [rewrite H2 by reflexivity|]; reflexivity.
Qed.

(** The default that the schema of a property gives is accepted by that schema, if it fits the field and
    the struct has a value at all. *)
Theorem C68_default_accepted_partial : forall St (items : nat -> item rval) text_ok tok c (s : settings St) st fuel t doc E def f d j v j0,
  plain_settings tok c s -> supported items tok c t -> (forall c, plain_structs items c t) ->
  root_document items s st fuel t doc -> validator text_ok (s_path s) doc E ->
  (forall c, names_property items c t def f) -> defaults_to items text_ok def f d ->
  has_default def f -> ~ left_out f d -> fits items text_ok f d j -> value_json items text_ok true t v = Some j0 ->
  exists sub, property_is doc (key c f) sub /\ s_get "default" sub = Some j /\ valid D2020 E sub j = true.
Proof.
  intros St items text_ok tok c s st fuel t doc E def f d j v j0 HS HU HP HR HV HN HD HH HL HF HJ.
  assert (HJ' : value_json items text_ok false (f_ty f) d = Some j).
  { pose proof (fit_json _ _ _ _ _ HF) as HX. unfold value_json in *. destruct (ser items text_ok true d (f_ty f)) eqn:EW; [|discriminate].
    now rewrite (ser_strict _ _ _ _ _ EW). }
  destruct (C68_default_partial St items text_ok tok c s st fuel t doc def f d j HS (HP c) HR (HN c) HD HH HL HJ') as (sub & H1 & H2).
  exists sub. split; [exact H1|]. split; [exact H2|].
  destruct (HN Serialize) as (i & cs & ts & l1 & l2 & -> & EQ & HFl & HT & HUn).
  destruct (fits_ser _ _ _ _ _ HFl HF) as (w & W1 & W2).
  destruct (with_default items text_ok i cs ts def l1 f l2 v j0 d w j EQ (pss_plain _ _ _ (HP Serialize)) HT HFl HUn HJ W1 W2) as (v' & o & V1 & V2).
  { unfold skip_now. destruct (f_skip_if f) as [p|] eqn:EP; [|reflexivity]. destruct (p d) eqn:ED; [|reflexivity]. elim HL. now exists p. }
  pose proof (values_validate _ _ _ _ _ _ _ _ _ _ _ _ _ HS HU HR HV V1) as HVal.
  assert (HK : key c f = f_ser f).
  { pose proof (wd_data _ _ _ _ (su_decls _ _ _ _ HU (TAdt i cs ts) i cs ts (reach_refl _ _) eq_refl)) as HW. rewrite EQ in HW.
    destruct HW as [HW _]. apply (written_name c def f). apply (wff_written _ _ _ _ _ HW). apply in_or_app. right. now left. }
  destruct H1 as (m & ps & -> & M1 & M2). rewrite HK in M2. exact (property_valid E m ps _ sub o j HVal M1 M2 V2).
Qed.
Print Assumptions C68_default_accepted_partial.

(** ** Examples *)
(** #[serde(default)] struct Opts { level: u8, #[serde(skip_serializing_if = "Option::is_none")] note: Option<String>,
                                    #[serde(flatten)] pos: Pos }
    struct Pos { x: i32 }, where Opts::default() is Opts { level: 3, note: None, pos: ... } *)
Definition opt_level : field rval := Field "level" "level" (TInt U8) false false None false (Some (JNum (NInt 3))) false no_vattrs [].
Definition opt_note : field rval := Field "note" "note" (TOption TStr) false false (Some is_none) false None false no_vattrs [].
Definition opt_prog (n : nat) : item rval :=
  match n with
  | 0 => Item "app" "Opts" None false (fun _ _ => Decl false (DStruct true (Struct [opt_level; opt_note; flat "pos" (TAdt 1 [] [])])) [])
  | _ => Item "app" "Pos" None false (fun _ _ => Decl false (DStruct false (Struct [fld "x" (TInt I32)])) [])
  end.
Definition opts : rty := TAdt 0 [] [].
Definition opt_types : list rty := [TAdt 0 [] []; TUnit; TInt U8; TOption TStr; TStr; TAdt 1 [] []; TInt I32].

Lemma opt_within c u : within_flat opt_prog c opts u -> In u [TAdt 0 [] []; TAdt 1 [] []].
Proof.
  induction 1 as [|i cs ts def fs f HW IH HD Hf HT HF]; [now left|].
  destruct IH as [[= <- <- <-]|[[= <- <- <-]|[]]]; cbn in HD; injection HD as <- <-; cbn in Hf;
    repeat (destruct Hf as [<-|Hf]; [first [discriminate HF|cbn; tauto]|]); destruct Hf.
Qed.
Lemma opt_plain c : plain_structs opt_prog c opts.
Proof.
  constructor; [exists 0, [], []; eexists _, _; split; reflexivity|].
  intros i cs ts def fs HW HD. apply opt_within in HW.
  destruct HW as [[= <- <- <-]|[[= <- <- <-]|[]]]; cbn in HD; injection HD as <- <-;
    (constructor; [intros k x []|]); intros f Hf _ HF; cbn in Hf;
    repeat (destruct Hf as [<-|Hf]; [first [discriminate HF|eexists _, _, _, _, _; split; reflexivity]|]); destruct Hf.
Qed.
Lemma opt_names c f : In f [opt_level; opt_note] -> names_property opt_prog c opts true f.
Proof.
  assert (HP : forall k, field_has opt_prog c (flat "pos" (TAdt 1 [] [])) k -> k = "x").
  { intros k H. inversion H as [g HG|g k' HG HX]; subst; [discriminate HG|]. inversion HX as [n cs ts def fs f' k0 HD Hf HT Hk]; subst.
    cbn in HD. injection HD as <- <-. destruct Hf as [<-|[]]. inversion Hk as [g' HG'|g' k' HG' HX']; subst; [now destruct c|discriminate HG']. }
  assert (HO : forall k, field_has opt_prog c opt_note k -> k = "note").
  { intros k H. inversion H as [g HG|g k' HG HX]; subst; [now destruct c|discriminate HG]. }
  intros Hf. cbn [In] in Hf. destruct Hf as [<-|[<-|[]]]; exists 0, [], [].
  - exists [], [opt_note; flat "pos" (TAdt 1 [] [])]. split; [reflexivity|]. split; [reflexivity|]. split; [reflexivity|]. split; [now destruct c|].
    intros g Hg _ H. cbn [In] in Hg. destruct Hg as [<-|[<-|[]]]; [apply HO in H|apply HP in H]; destruct c; discriminate H.
  - exists [opt_level], [flat "pos" (TAdt 1 [] [])]. split; [reflexivity|]. split; [reflexivity|]. split; [reflexivity|]. split; [now destruct c|].
    intros g Hg _ H. cbn [In] in Hg. destruct Hg as [<-|[]]. apply HP in H; destruct c; discriminate H.
Qed.
Lemma opt_supported c : supported opt_prog "$defs" c opts.
Proof.
  assert (HL : forall u, reach opt_prog opts u -> In u opt_types).
  { intros u. apply reach_list; [now left|]. intros x w HX. unfold opt_types in *. cbn [In] in HX.
    repeat (destruct HX as [<-|HX]; [cbn; intuition (subst; auto 20)|]). destruct HX. }
  constructor.
  - intros u i cs ts HR HU. apply HL in HR. unfold opt_types in HR. cbn [In] in HR.
    repeat (destruct HR as [<-|HR]; [try discriminate HU|]); [| |destruct HR]; injection HU as <- <- <-;
      (constructor; [apply ex_no_meta|]); (split; [|discriminate]); constructor.
    + intros f Hf. cbn in Hf. repeat (destruct Hf as [<-|Hf]; [constructor; auto|]). destruct Hf.
    + intros f Hf. cbn in Hf. repeat (destruct Hf as [<-|Hf]; [apply ex_no_meta|]). destruct Hf.
    + intros f Hf _ HF. cbn in Hf. repeat (destruct Hf as [<-|Hf]; [try discriminate HF|]); [|destruct Hf].
      right. split; [|intros H; now elim H]. left. eexists _, _, _, _, _. split; [reflexivity|]. split; [reflexivity|]. vm_compute. intuition (subst; auto).
    + repeat constructor; discriminate.
    + assert (HP : forall k, field_declares opt_prog (flat "pos" (TAdt 1 [] [])) k -> k = "x").
      { intros k H. inversion H as [g HG|g k' HG HX]; subst; [discriminate HG|].
        inversion HX; subst; match goal with HD : d_data _ = _ |- _ => cbn in HD; first [discriminate HD|injection HD as <- <-] end.
        match goal with Hf : In _ [_] |- _ => destruct Hf as [<-|[]] end. match goal with H : field_declares _ (fld _ _) _ |- _ => now apply fld_declares in H end. }
      assert (HN : forall k, field_declares opt_prog opt_note k -> k = "note").
      { intros k H. inversion H as [g HG|g k' HG HX]; subst; [reflexivity|discriminate HG]. }
      assert (HV : forall k, field_declares opt_prog opt_level k -> k = "level").
      { intros k H. inversion H as [g HG|g k' HG HX]; subst; [reflexivity|discriminate HG]. }
      repeat constructor; intros _ _ k H1 H2; repeat first [apply HP in H1|apply HP in H2|apply HN in H1|apply HN in H2|apply HV in H1|apply HV in H2]; congruence.
    + intros f Hf. cbn in Hf. repeat (destruct Hf as [<-|Hf]; [constructor; auto|]). destruct Hf.
    + intros f Hf. cbn in Hf. repeat (destruct Hf as [<-|Hf]; [apply ex_no_meta|]). destruct Hf.
    + intros f Hf _ HF. cbn in Hf. repeat (destruct Hf as [<-|Hf]; [discriminate HF|]). destruct Hf.
    + repeat constructor; discriminate.
    + repeat constructor.
  - intros u HR HI. apply HL in HR. unfold opt_types in HR. cbn [In] in HR.
    repeat (destruct HR as [<-|HR]; [first [discriminate HI|split; vm_compute; reflexivity]|]). destruct HR.
  - intros u u' HR HR' HI HE. apply HL in HR. apply HL in HR'. unfold opt_types in HR, HR'. cbn [In] in HR, HR'.
    repeat (destruct HR as [<-|HR]; [first [discriminate HI|clear HI; repeat (destruct HR' as [<-|HR']; [first [reflexivity|discriminate HE]|]); destruct HR']|]). destruct HR.
  - intros u HR. apply HL in HR. unfold opt_types in HR. cbn [In] in HR. repeat (destruct HR as [<-|HR]; [cbn; tauto|]). destruct HR.
Qed.

Definition opt_doc (c : contract) : json :=
  match root_schema_for (info opt_prog) (json_schema (info opt_prog) 20) opts (new_gen (match c with Serialize => ex_settings | Deserialize => de_settings end) tt) with
  | Some (d, _) => d | None => JNull end.

Example C68_example :
  let doc := opt_doc Deserialize in
  let E := the_validator (doc_table doc) in
  plain_settings "$defs" Deserialize de_settings /\ supported opt_prog "$defs" Deserialize opts /\ (forall c, plain_structs opt_prog c opts)
  /\ root_document opt_prog de_settings tt 20 opts doc /\ validator all_texts (s_path de_settings) doc E
  /\ (forall c f, In f [opt_level; opt_note] -> names_property opt_prog c opts true f)
  /\ defaults_to opt_prog all_texts true opt_level (RInt 3) /\ has_default true opt_level /\ ~ left_out opt_level (RInt 3)
  /\ fits opt_prog all_texts opt_level (RInt 3) (JNum (NInt 3))
  /\ value_json opt_prog all_texts true opts (RSeq [RInt 9; RSome (RStr "n"); RSeq [RInt 1]])
     = Some (JObj [("level", JNum (NInt 9)); ("note", JStr "n"); ("x", JNum (NInt 1))])
  (* the default of [note] is left out when serializing, and is not given *)
  /\ defaults_to opt_prog all_texts true opt_note RNone /\ left_out opt_note RNone
  /\ s_get "properties" doc = Some (JObj
       [("level", JObj [("default", JNum (NInt 3)); ("format", JStr "uint8"); ("maximum", JNum (NInt 255)); ("minimum", JNum (NInt 0)); ("type", JStr "integer")]);
        ("note", JObj [("type", JArr [JStr "string"; JStr "null"])]);
        ("x", JObj [("format", JStr "int32"); ("type", JStr "integer")])]).
Proof.
  cbv zeta. split; [apply de_plain|]. split; [apply opt_supported|]. split; [apply opt_plain|].
  split; [eexists; vm_compute; reflexivity|]. split; [apply table_validator; vm_compute; reflexivity|].
  split; [intros c f; apply opt_names|]. split; [reflexivity|]. split; [split; [now right|reflexivity]|].
  split; [intros (p & HP & _); discriminate HP|]. split; [constructor; vm_compute; auto|].
  split; [vm_compute; reflexivity|]. split; [reflexivity|]. split; [exists is_none; split; reflexivity|]. vm_compute. reflexivity.
Qed.

(** Vec<Opts>, where Opts is in a definition *)
Lemma reached_ids (items : nat -> item rval) t L :
  (forall u, reach items t u -> In u L) ->
  Forall (fun u => type_inline items u = true \/ Forall (fun u' => type_id items u = type_id items u' -> unwrap u = unwrap u') L) L -> own_ids items t.
Proof.
  intros HL HB u u' HR HR' HI HE. apply HL in HR. apply HL in HR'. rewrite Forall_forall in HB. destruct (HB u HR) as [H|H]; [congruence|].
  rewrite Forall_forall in H. now apply H.
Qed.
Ltac check_ids := repeat (constructor; [first [now left|right; repeat (constructor; [first [reflexivity|intros HE; discriminate HE]|]); constructor]|]); constructor.
Example C68_definition_example :
  let r := root_schema_for (info opt_prog) (json_schema (info opt_prog) 20) (TSeq opts) (new_gen ex_settings tt) in
  own_ids opt_prog (TSeq opts) /\ r <> None /\ reach opt_prog (TSeq opts) opts /\ named_after opt_prog "Opts" opts
  /\ defaults_to opt_prog all_texts true opt_level (RInt 3) /\ has_default true opt_level /\ ~ left_out opt_level (RInt 3)
  /\ match r with Some (_, g) => g_defs g | None => [] end = [("Opts", JObj
       [("properties", JObj
          [("level", JObj [("default", JNum (NInt 3)); ("format", JStr "uint8"); ("maximum", JNum (NInt 255)); ("minimum", JNum (NInt 0)); ("type", JStr "integer")]);
           ("note", JObj [("type", JArr [JStr "string"; JStr "null"])]);
           ("x", JObj [("format", JStr "int32"); ("type", JStr "integer")])]);
        ("required", JArr [JStr "level"; JStr "x"]); ("type", JStr "object")])].
Proof.
  cbv zeta. split.
  { apply (reached_ids _ _ (TSeq opts :: opt_types)); [|check_ids].
    intros u. apply reach_list; [now left|]. intros x w HX. unfold opt_types in *. cbn [In] in HX.
    repeat (destruct HX as [<-|HX]; [cbn; intuition (subst; auto 20)|]). destruct HX. }
  split; [vm_compute; discriminate|]. split; [eapply reach_step; [apply reach_refl|now left]|]. split; [split; [reflexivity|now left]|].
  split; [reflexivity|]. split; [split; [now right|reflexivity]|]. split; [intros (p & HP & _); discriminate HP|]. vm_compute. reflexivity.
Qed.

(** ** A default that the schema refuses *)
(** struct T { #[serde(default)] #[schemars(required)] note: Option<u8> }: the schema of the property is that of
    [u8], with null as its default. *)
Definition required_only : vattrs := VAttrs None None None None None true None None.
Theorem C68_required_refuted : exists items f doc sub,
  plain_structs items Deserialize (TAdt 0 [] []) /\ names_property items Deserialize (TAdt 0 [] []) false f
  /\ has_default false f /\ defaults_to items all_texts false f RNone
  /\ root_document items de_settings tt 20 (TAdt 0 [] []) doc
  /\ property_is doc "note" sub /\ s_get "default" sub = Some JNull /\ forall E, valid D2020 E sub JNull = false.
Proof.
  set (f := Field "note" "note" (TOption (TInt U8)) false false None true (Some JNull) false required_only [] : field rval).
  exists (one_item (Decl false (DStruct false (Struct [f])) [])), f. eexists _, _.
  split.
  { constructor; [exists 0, [], []; eexists _, _; split; reflexivity|]. intros i cs ts def fs HW HD.
    assert (HX : TAdt i cs ts = TAdt 0 [] []).
    { remember (TAdt i cs ts) as u eqn:EU. clear EU HD. induction HW as [|i' cs' ts' def' fs' f' HW' IH HD' Hf HT HF]; [reflexivity|].
      injection IH as -> -> ->. cbn in HD'. injection HD' as <- <-. destruct Hf as [<-|[]]. discriminate HF. }
    injection HX as -> -> ->. cbn in HD. injection HD as <- <-. constructor; [intros k x []|]. intros g [<-|[]] _ HG. discriminate HG. }
  split. { exists 0, [], [], [], []. repeat split. intros g []. }
  split; [split; [now left|reflexivity]|]. split; [reflexivity|]. split; [eexists; vm_compute; reflexivity|].
  split; [eexists _, _; split; [reflexivity|split; reflexivity]|]. split; [reflexivity|]. intros E. vm_compute. reflexivity.
Qed.
Print Assumptions C68_required_refuted.
