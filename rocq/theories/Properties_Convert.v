(** Property theorems C60 and C61: enums derived with [JsonSchema_repr], and types that are converted
    from or to another type. *)
From Coq Require Import String Ascii List ZArith Bool Lia.
From Verif Require Import ValidationAttrs Json JsonFacts SchemaApi Pointer Validate ValidateKw Private ShapeFacts Generate GenerateDoc TypesShape Types TypesSchema SerValue Serde
  SoundBase SoundStruct SoundTypes SoundAdt Sound Properties_Types Properties_Sound Properties_Contract.
Import ListNotations.
Open Scope string_scope.
Open Scope list_scope.

(** What the attributes of the type itself add: keywords that no validator asserts *)
Definition annotations (meta : list (string * json)) : Prop := forall k x, In (k, x) meta -> ~ In k kws /\ ~ In k ctx.

Lemma annotated meta : annotations meta -> forall E s v, is_schema s = true -> valid D2020 E (insert_all meta s) v = valid D2020 E s v.
Proof.
  intros HM E. induction meta as [|[k x] l IH]; intros s v H; [reflexivity|]. rewrite insert_all_cons.
  rewrite IH; [|intros k' x' Hin; apply (HM k' x'); now right|reflexivity].
  cbn [fst snd]. destruct (HM k x (or_introl eq_refl)). now apply valid_insert.
Qed.

Lemma equal_integral n z : num_eqb n (NInt z) = true -> num_integral n = true.
Proof.
  destruct n as [y|m e]; [reflexivity|]. unfold num_eqb, num_cmp. cbn [num_me num_integral].
  destruct (Z.compare_spec (m * 2 ^ (e - Z.min e 0)) (z * 2 ^ (0 - Z.min e 0))) as [H| |]; try discriminate. intros _.
  destruct (Z.leb_spec 0 e); [reflexivity|]. rewrite Z.min_l in H by lia. rewrite Z.sub_diag, Z.mul_1_r in H.
  apply Z.eqb_eq. rewrite H. rewrite Z.sub_0_l. apply Z.mod_mul. apply Z.pow_nonzero; lia.
Qed.
Lemma repr_valid E zs x : valid D2020 E (repr_schema zs) x = true <-> exists n z, x = JNum n /\ In z zs /\ num_eqb n (NInt z) = true.
Proof.
  unfold repr_schema, obj. rewrite valid_mk by (repeat constructor; cbn; intuition congruence). cbn [forallb fst snd]. unfold kw.
  cbn [String.eqb Ascii.eqb Bool.eqb existsb assertion_names orb]. rewrite chk_type_str, andb_true_r, andb_true_iff. cbn [chk_enum].
  rewrite existsb_exists. split.
  - intros [_ (y & Hy & HE)]. apply in_map_iff in Hy as (z & <- & Hz). destruct x; try discriminate. eauto.
  - intros (n & z & -> & Hz & HE). split; [cbn; exact (equal_integral n z HE)|]. exists (jz z). split; [now apply in_map|exact HE].
Qed.

(** ** C60 *)

Lemma repr_runs {X St} (items : nat -> item X) m i cs ts deny zs meta (g : gen rty St) s g' :
  it_decl (items i) cs ts = Decl deny (DRepr zs) meta -> json_schema (info items) m (TAdt i cs ts) g = Some (s, g') ->
  s = insert_all meta (repr_schema zs) /\ g_set g' = g_set g /\ g_defs g' = g_defs g /\ g_roots g' = g_roots g.
Proof.
  intros HD. destruct m as [|m]; [discriminate|]. cbn [json_schema info t_body body run_prog]. rewrite HD. cbn. intros [= <- <-]. auto.
Qed.

(** A number is accepted if and only if it equals the discriminant of a variant; nothing else is. *)
Theorem C60_repr_exact : forall X St (items : nat -> item X) m i cs ts deny zs meta (g : gen rty St) s g' E x,
  it_decl (items i) cs ts = Decl deny (DRepr zs) meta -> annotations meta ->
  json_schema (info items) m (TAdt i cs ts) g = Some (s, g') ->
  (valid D2020 E s x = true <-> exists n z, x = JNum n /\ In z zs /\ num_eqb n (NInt z) = true).
Proof.
  intros X St items m i cs ts deny zs meta g s g' E x HD HM H. apply (repr_runs _ _ _ _ _ _ _ _ _ _ _ HD) in H as [-> _].
  rewrite annotated by (auto; reflexivity). apply repr_valid.
Qed.
Print Assumptions C60_repr_exact.

(** The same for the document of [root_schema_for] *)
Theorem C60_repr_document : forall St (items : nat -> item rval) (s : settings St) st fuel i cs ts deny zs meta doc E x,
  it_decl (items i) cs ts = Decl deny (DRepr zs) meta -> annotations meta -> s_transforms s = [] ->
  root_document items s st fuel (TAdt i cs ts) doc ->
  (valid D2020 E doc x = true <-> exists n z, x = JNum n /\ In z zs /\ num_eqb n (NInt z) = true).
Proof.
  intros St items s st fuel i cs ts deny zs meta doc E x HD HM HT [g' HR].
  unfold root_schema_for in HR. destruct (json_schema_internal _ _ _ _) as [[s1 g1]|] eqn:EJ; [|discriminate].
  unfold json_schema_internal in EJ. destruct (json_schema _ _ _ _) as [[s2 g2]|] eqn:EJ2; [|discriminate].
  apply (repr_runs _ _ _ _ _ _ _ _ _ _ _ HD) in EJ2 as (-> & HS & HDf & _).
  assert (H1 : s1 = insert_all meta (repr_schema zs) /\ g_set g1 = s /\ g_defs g1 = []).
  { injection EJ as <- <-. cbn in *. auto. }
  destruct H1 as (-> & H2 & H3). clear EJ HS HDf. unfold apply_transforms in HR. rewrite H2, H3, HT in HR. cbn [fold_left add_definitions] in HR.
  injection HR as <- _. rewrite <- (repr_valid E zs x). rewrite <- (annotated meta HM E (repr_schema zs) x eq_refl). apply eq_iff_eq_true.
  assert (HI : exists m, insert_all meta (repr_schema zs) = JObj m) by (eapply insert_all_obj; reflexivity).
  destruct HI as [m0 HI]. rewrite HI. unfold root_object. change (ensure_obj (JObj m0)) with m0.
  assert (A : forall k y m, In k ["title"; "$schema"] -> valid D2020 E (JObj (mset k y m)) x = valid D2020 E (JObj m) x).
  { intros k y m Hk. change (JObj (mset k y m)) with (insert k y (JObj m)).
    destruct Hk as [<-|[<-|[]]]; apply valid_insert; try reflexivity; cbn; intuition discriminate. }
  destruct (s_meta s); rewrite ?(A "$schema") by (right; left; reflexivity); (destruct (mhas "title" m0); [reflexivity|apply A; now left]).
Qed.
Print Assumptions C60_repr_document.

(** serde_repr writes the number of a variant, so what it writes is accepted, and nothing that equals no
    number of a variant is. (Only the types that serde_json has a number for can be the repr of an enum that
    derives JsonSchema_repr: those up to 64 bits.) *)
Theorem C60_repr_values : forall (items : nat -> item rval) text_ok i cs ts deny zs meta n z,
  it_decl (items i) cs ts = Decl deny (DRepr zs) meta -> nth_error zs n = Some z -> fits_number z = true ->
  value_json items text_ok true (TAdt i cs ts) (RVariant n []) = Some (JNum (NInt z))
  /\ forall St m (g : gen rty St) s g' E, annotations meta -> json_schema (info items) m (TAdt i cs ts) g = Some (s, g') ->
     valid D2020 E s (JNum (NInt z)) = true.
Proof.
  intros items text_ok i cs ts deny zs meta n z HD HN HZ. split.
  - unfold value_json. cbn [ser map]. unfold ser_decl. rewrite HD. cbn [d_data ser_data]. rewrite HN. cbn [option_map to_json]. now rewrite HZ.
  - intros St m g s g' E HM H. eapply C60_repr_exact; eauto. exists (NInt z), z. split; [reflexivity|]. split; [eapply nth_error_In; eauto|].
    unfold num_eqb, num_cmp. cbn. now rewrite Z.mul_1_r, Z.compare_refl.
Qed.
Print Assumptions C60_repr_values.

(** /// How loud. #[derive(Serialize_repr, JsonSchema_repr)] #[repr(i8)] enum Level { Off, Low = 3, Below = -1 }
    #[serde(from = "String", into = "u32")] struct Id { .. }
    struct Entry { level: Level, id: Id } *)
Definition conv_level : decl rval := Decl false (DRepr [0; 3; -1]%Z) [("description", JStr "How loud.")].
Definition conv_id : decl rval := Decl false (DConv (Some TStr) (Some (TInt U32)) (DStruct false (Struct [fld "raw" TBool]))) [("title", JStr "An id")].
Definition conv_entry : decl rval := Decl false (DStruct false (Struct [fld "level" (TAdt 0 [] []); fld "id" (TAdt 1 [] [])])) [].
Definition conv_prog (n : nat) : item rval :=
  match n with
  | 0 => Item "app" "Level" None false (fun _ _ => conv_level)
  | 1 => Item "app" "Id" None false (fun _ _ => conv_id)
  | _ => Item "app" "Entry" None false (fun _ _ => conv_entry)
  end.

Example C60_example :
  annotations [("description", JStr "How loud.")]
  /\ exists s g', json_schema (info conv_prog) 5 (TAdt 0 [] []) (new_gen ex_settings tt) = Some (s, g')
     /\ s = JObj [("description", JStr "How loud."); ("enum", JArr [JNum (NInt 0); JNum (NInt 3); JNum (NInt (-1))]); ("type", JStr "integer")]
     /\ (forall E, valid D2020 E s (JNum (NFlt 6 (-1))) = true) /\ (forall E, valid D2020 E s (JNum (NInt 1)) = false)
     /\ (forall E, valid D2020 E s (JStr "Low") = false).
Proof.
  split. { intros k x [[= <- <-]|[]]. split; cbn; intuition discriminate. }
  eexists _, _. split; [vm_compute; reflexivity|]. split; [reflexivity|]. repeat split; intros E; vm_compute; reflexivity.
Qed.

(** ** C61 *)

(** The schema accepts exactly what the schema of the other type accepts, which is made by the same
    generator (but for the log of the model). The definitions, and so what is done by those who refer to the
    type, are as that type leaves them. *)
Theorem C61_converted : forall X St (items : nat -> item X) m i cs ts deny from into own meta t (g : gen rty St) s g',
  it_decl (items i) cs ts = Decl deny (DConv from into own) meta -> annotations meta ->
  (s_contract (g_set g) = Deserialize /\ from = Some t \/ s_contract (g_set g) = Serialize /\ into = Some t) ->
  json_schema (info items) (S m) (TAdt i cs ts) g = Some (s, g') ->
  exists s0 g1, json_schema (info items) m t (emit (EvRun (TAdt i cs ts)) g) = Some (s0, g1) /\ g' = emit (EvRet (TAdt i cs ts)) g1
    /\ s = insert_all meta s0 /\ forall E x, valid D2020 E s x = valid D2020 E s0 x.
Proof.
  intros X St items m i cs ts deny from into own meta t g s g' HD HM HC. cbn [json_schema info t_body body run_prog]. rewrite HD.
  unfold decl_prog. cbn [d_data d_deny d_meta data_prog].
  change (g_set (emit (EvRun (TAdt i cs ts)) g)) with (g_set g).
  assert (EC : converted (s_contract (g_set g)) from into = Some t) by (destruct HC as [[-> ->]|[-> ->]]; reflexivity).
  rewrite EC. cbn [run_prog].
  destruct (json_schema (info items) m t _) as [[s0 g1]|] eqn:EJ; [|discriminate]. intros [= <- <-].
  exists s0, g1. repeat split. intros E x. apply annotated; [exact HM|]. eapply json_schema_returns; eauto.
Qed.
Print Assumptions C61_converted.

(** In the mode for which no conversion is given the attribute changes nothing: the program is that of a
    type declared without it. *)
Theorem C61_other_mode : forall X St (items : nat -> item X) i cs ts i' deny from into own meta js (g : gen rty St),
  it_decl (items i) cs ts = Decl deny (DConv from into own) meta -> it_decl (items i') cs ts = Decl deny own meta ->
  (s_contract (g_set g) = Deserialize /\ from = None \/ s_contract (g_set g) = Serialize /\ into = None) ->
  run_prog (info items) js (t_body (info items (TAdt i cs ts))) g = run_prog (info items) js (t_body (info items (TAdt i' cs ts))) g.
Proof.
  intros X St items i cs ts i' deny from into own meta js g HD HD' HC. cbn [info t_body body run_prog]. rewrite HD, HD'.
  unfold decl_prog. cbn [d_data d_deny d_meta data_prog].
  assert (EC : converted (s_contract (g_set g)) from into = None) by (destruct HC as [[-> ->]|[-> ->]]; reflexivity).
  now rewrite EC.
Qed.
Print Assumptions C61_other_mode.

(** What serde writes for a type with [into] is what it writes for the other type; so by C46 the document for
    serialization accepts it. *)
Theorem C61_written_values : forall St (items : nat -> item rval) text_ok tok (s : settings St) st fuel i cs ts deny from t own meta doc E v j,
  it_decl (items i) cs ts = Decl deny (DConv from (Some t) own) meta ->
  plain_settings tok Serialize s -> supported items tok Serialize (TAdt i cs ts) -> root_document items s st fuel (TAdt i cs ts) doc ->
  validator text_ok (s_path s) doc E ->
  value_json items text_ok true t v = Some j ->
  value_json items text_ok true (TAdt i cs ts) (RSeq [v]) = Some j /\ valid D2020 E doc j = true.
Proof.
  intros St items text_ok tok s st fuel i cs ts deny from t own meta doc E v j HD HS HU HR HV HJ.
  assert (H : value_json items text_ok true (TAdt i cs ts) (RSeq [v]) = Some j).
  { rewrite <- HJ. unfold value_json. cbn [ser map]. unfold ser_decl. rewrite HD. reflexivity. }
  split; [exact H|]. eapply values_validate; eauto.
Qed.
Print Assumptions C61_written_values.

Definition conv_types : list rty := [TAdt 2 [] []; TAdt 0 [] []; TAdt 1 [] []; TUnit; TStr; TInt U32; TBool].
Lemma conv_supported : supported conv_prog "$defs" Serialize (TAdt 2 [] []).
Proof.
  assert (HL : forall u, reach conv_prog (TAdt 2 [] []) u -> In u conv_types).
  { intros u. apply reach_list; [now left|]. intros x w HX. unfold conv_types in *. cbn [In] in HX.
    repeat (destruct HX as [<-|HX]; [cbn; intuition (subst; auto 20)|]). destruct HX. }
  constructor.
  - intros u i cs ts HR HU. apply HL in HR. unfold conv_types in HR. cbn [In] in HR.
    repeat (destruct HR as [<-|HR]; [try discriminate HU|]); try destruct HR; injection HU as <- <- <-.
    + constructor; [apply ex_no_meta|]. cbn [conv_prog conv_entry it_decl d_data d_deny wf_data wf_style]. split; [|discriminate].
      constructor.
      * intros f Hf. cbn in Hf. repeat (destruct Hf as [<-|Hf]; [constructor; auto|]). destruct Hf.
      * intros f Hf. cbn in Hf. repeat (destruct Hf as [<-|Hf]; [apply ex_no_meta|]). destruct Hf.
      * intros f Hf _ HF. cbn in Hf. repeat (destruct Hf as [<-|Hf]; [discriminate HF|]). destruct Hf.
      * repeat constructor; discriminate.
      * repeat constructor; intros _ _ k H1 H2; apply fld_declares in H1; apply fld_declares in H2; congruence.
    + constructor; [|exact I]. intros k x [[= <- <-]|[]]. repeat split; cbn; intuition discriminate.
    + constructor; [|split; discriminate]. intros k x [[= <- <-]|[]]. repeat split; cbn; intuition discriminate.
  - intros u HR HI. apply HL in HR. unfold conv_types in HR. cbn [In] in HR.
    repeat (destruct HR as [<-|HR]; [first [discriminate HI|split; vm_compute; reflexivity]|]). destruct HR.
  - intros u u' HR HR' HI HE. apply HL in HR. apply HL in HR'. unfold conv_types in HR, HR'. cbn [In] in HR, HR'.
    repeat (destruct HR as [<-|HR]; [first [discriminate HI|clear HI; repeat (destruct HR' as [<-|HR']; [first [reflexivity|discriminate HE]|]); destruct HR']|]). destruct HR.
  - intros u HR. apply HL in HR. unfold conv_types in HR. cbn [In] in HR. repeat (destruct HR as [<-|HR]; [cbn; tauto|]). destruct HR.
Qed.

Example C61_example :
  let doc := doc_of conv_prog (TAdt 2 [] []) in
  let E := the_validator (doc_table doc) in
  supported conv_prog "$defs" Serialize (TAdt 2 [] [])
  /\ root_document conv_prog ex_settings tt 20 (TAdt 2 [] []) doc
  /\ validator all_texts (s_path ex_settings) doc E
  /\ (exists j, value_json conv_prog all_texts true (TAdt 2 [] []) (RSeq [RVariant 1 []; RSeq [RInt 70]]) = Some j
      /\ j = JObj [("id", JNum (NInt 70)); ("level", JNum (NInt 3))] /\ valid D2020 E doc j = true)
  /\ valid D2020 E doc (JObj [("id", JObj [("raw", JBool true)]); ("level", JNum (NInt 3))]) = false
  /\ (let doc' := de_doc conv_prog (TAdt 2 [] []) in let E' := the_validator (doc_table doc') in
      valid D2020 E' doc' (JObj [("id", JStr "x"); ("level", JNum (NInt 3))]) = true
      /\ valid D2020 E' doc' (JObj [("id", JNum (NInt 70)); ("level", JNum (NInt 3))]) = false).
Proof.
  cbv zeta. split; [apply conv_supported|].
  split; [eexists; vm_compute; reflexivity|]. split; [apply table_validator; vm_compute; reflexivity|].
  split; [eexists; split; [vm_compute; reflexivity|split; vm_compute; reflexivity]|]. repeat split; vm_compute; reflexivity.
Qed.

(** One conversion alone: the document for deserialization describes the fields, although what is written is
    the other type. #[serde(into = "String")] struct T { raw: bool } *)
Theorem C61_into_only_refuted :
  rejected_by_default (one_item (Decl false (DConv None (Some TStr) (DStruct false (Struct [fld "raw" TBool]))) []))
    (TAdt 0 [] []) (RSeq [RStr "x"]) (JStr "x").
Proof. reject_by_default. Qed.
Print Assumptions C61_into_only_refuted.
