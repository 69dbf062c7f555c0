(** Property theorems C42, C46, C47: the document generated for a type accepts the JSON serde_json
    produces for the values of the type.

    Serialization is specified in Serde.v ([value_json]; with [strict] set it refuses the values
    that the refutations below are about), JSON Schema validation in Validate.v. *)
From Coq Require Import String Ascii List ZArith Bool Lia.
From Verif Require Import Json JsonFacts Utf8 Encoding EncodingProofs SchemaApi Transform Validate ValidateFacts ValidateKw Pointer
  PointerProofs Private Generate GenerateDoc SerValue ValidationAttrs ValidationProofs ValidationField Types TypesShape Serde SerdeFacts Properties_Types TypeId TypeSim TypeErase
  Properties_Id Derivation Properties_Root SoundBase SoundStruct SoundTypes SoundAdt Sound SoundIds SoundShape ValidateRefs.
Import ListNotations.
Open Scope string_scope.
Open Scope list_scope.

(** ** What the theorems assume *)
(** The settings: for the contract [c], no transforms, definitions at a path of plain text whose first
    step [tok] is not a keyword that schemas use, like "/$defs". *)
Record plain_settings {St} (tok : string) (c : contract) (s : settings St) : Prop := {
  ps_contract : s_contract s = c;
  ps_transforms : s_transforms s = [];
  ps_path : good_path (s_path s);
  ps_text : utf8_valid (definitions_path_stripped (s_path s)) = true /\ no_pct (definitions_path_stripped (s_path s)) = true;
  ps_tok : exists more, path_tokens (s_path s) = tok :: more;
  ps_fresh : ~ In tok used /\ tok <> "title" /\ tok <> "$schema" }.

(** A validator which knows what the formats and the two decimal patterns mean and which follows the
    references into [doc] *)
Record validator (text_ok : checks) (path : string) (doc : json) (E : env) : Prop := {
  va_formats : formats text_ok E;
  va_patterns : decimal_patterns E;
  va_refs : resolves E path doc }.

(** The types reached from [t]: the declarations are in the supported fragment ([wf_decl], SoundAdt.v),
    the names of definitions are plain text, no id is shared by types that differ by more than
    forwarding types, no Weak pointer is a map key. *)
Record supported (items : nat -> item rval) (tok : string) (c : contract) (t : rty) : Prop := {
  su_decls : forall u i cs ts, reach items t u -> unwrap u = TAdt i cs ts -> wf_decl items tok c (it_decl (items i) cs ts);
  su_names : forall u, reach items t u -> type_inline items u = false -> plain_name (type_name items u);
  su_ids : forall u u', reach items t u -> reach items t u' -> type_inline items u = false ->
    type_id items u = type_id items u' -> erase u = erase u';
  su_keys : forall u, reach items t u -> weak_keys_free u }.

(** [root_schema_for::<t>()] on a new generator returns [doc]. *)
Definition root_document {St} (items : nat -> item rval) (s : settings St) (st : St) (fuel : nat) (t : rty) (doc : json) : Prop :=
  exists g', root_schema_for (info items) (json_schema (info items) fuel) t (new_gen s st) = Some (doc, g').

Theorem values_validate : forall St (items : nat -> item rval) text_ok tok c (s : settings St) st fuel t doc E v j,
  plain_settings tok c s -> supported items tok c t -> root_document items s st fuel t doc ->
  validator text_ok (s_path s) doc E ->
  value_json items text_ok true t v = Some j -> valid D2020 E doc j = true.
Proof.
  intros St items text_ok tok c s st fuel t doc E v j HS HU [g' HR] HV HJ.
  unfold value_json in HJ. destruct (ser items text_ok true v t) as [sv|] eqn:ES; [|discriminate]. apply to_json_json_of in HJ.
  destruct (ps_tok _ _ _ HS) as [more HT]. destruct (ps_fresh _ _ _ HS) as (F1 & F2). destruct (ps_text _ _ _ HS) as [T1 T2].
  eapply (root_sound items text_ok E (va_formats _ _ _ _ HV) (va_patterns _ _ _ _ HV) tok F1 F2 s (ps_transforms _ _ _ HS)
    (ps_path _ _ _ HS) T1 T2 more HT t); eauto.
  - rewrite (ps_contract _ _ _ HS). apply (su_decls _ _ _ _ HU).
  - apply (su_names _ _ _ _ HU).
  - intros u u' Hu Hu' HI HE. apply erase_alike; [|apply (su_keys _ _ _ _ HU); assumption|apply (su_keys _ _ _ _ HU); assumption].
    apply (su_ids _ _ _ _ HU); assumption.
  - apply HV.
Qed.

(** ** Validators exist *)
(** A validator for a document with its definitions under "$defs" (or none), from a table of the
    schemas that can be referred to (ValidateRefs.v); used in the examples below. *)
Definition defs_of (doc : json) : option (list (string * json)) :=
  match doc with
  | JObj m => match mget "$defs" m with Some (JObj defs) => Some defs | None => Some [] | _ => None end
  | _ => None
  end.
Definition in_table (table : list (string * json)) (r : string) (d : json) : bool :=
  match mget r table with Some x => json_eqb x d | None => false end.
Definition table_of (doc : json) (table : list (string * json)) : bool :=
  ordered table && in_table table "#" doc
  && match defs_of doc with
     | Some defs => forallb (fun nd => match nd with (n, d) =>
                      in_table table ("#/$defs/" ++ n) d && in_table table ("#/$defs/" ++ encode_ref_name n) d end) defs
     | None => false
     end.
Definition the_validator (table : list (string * json)) : env :=
  table_env D2020 (e_rx decimal_env) (fun _ _ => true) table.

Lemma in_table_get table r d : in_table table r d = true -> mget r table = Some d.
Proof. unfold in_table. destruct (mget r table); [|discriminate]. intros H. apply json_eqb_eq in H. now subst. Qed.

Lemma table_resolves rx fmt doc table : table_of doc table = true -> resolves (table_env D2020 rx fmt table) "/$defs" doc.
Proof.
  unfold table_of. rewrite !andb_true_iff. intros [[HO HD] HT]. apply in_table_get in HD.
  destruct (defs_of doc) as [defs|] eqn:ED; [|discriminate]. rewrite forallb_forall in HT.
  assert (HE : forall r d v, mget r table = Some d -> ok (e_ref (table_env D2020 rx fmt table) r v) = valid D2020 (table_env D2020 rx fmt table) d v).
  { intros r d v HM. apply (table_env_spec D2020 rx fmt table HO r d v HM). }
  assert (HG : forall n d, value_pointer doc ("/$defs" ++ String "/" (ptr_escape n)) = Some d -> In (n, d) defs).
  { intros n d. unfold value_pointer. rewrite (tokens_app_slash "/$defs" (ptr_escape n) (no_slash_escape n) (ex_intro _ "$defs" eq_refl)).
    change (map unescape (snd (split_on "/" "/$defs")) ++ [unescape (ptr_escape n)])%list with ["$defs"; unescape (ptr_escape n)].
    rewrite unescape_escape. cbn [walk]. unfold defs_of in ED. destruct doc as [| | | | |m]; try discriminate. cbn [child].
    destruct (mget "$defs" m) as [[| | | | |ds]|]; try discriminate. injection ED as ->. cbn [child].
    destruct (mget n defs) eqn:EM; [|discriminate]. intros [= ->]. now apply mget_In. }
  intros r d v [->|(n & HN & HR)] HP.
  - apply HE. cbn in HP. injection HP as <-. exact HD.
  - change (definitions_path_stripped "/$defs") with "/$defs" in HR.
    assert (HI : In (n, d) defs).
    { apply HG. unfold s_pointer in HP. destruct HR as [->| ->].
      - change (String "#" ("/$defs" ++ String "/" (encode_ref_name n))) with (ref_string "/$defs" n) in HP.
        rewrite effective_ref_string in HP; [|reflexivity|reflexivity|apply HN]. destruct HN as [_ HN]. destruct (plain_all _ HN) as (H1 & _).
        rewrite lossy_id in HP by exact H1. exact HP.
      - pose proof (raw_pointer "/$defs" n eq_refl eq_refl HN) as HX. change (definitions_path_stripped "/$defs") with "/$defs" in HX.
        rewrite HX in HP. exact HP. }
    specialize (HT _ HI). cbn in HT. rewrite andb_true_iff in HT. destruct HT as [T1 T2].
    destruct HR as [->| ->]; apply HE, in_table_get; assumption.
Qed.

(** The examples allow every text for the types that are written as text, and any value in a field
    without validation attributes. *)
Definition unchecked (a : vattrs) : bool :=
  match a with VAttrs None None None None None _ None None => true | _ => false end.
Definition all_texts : checks := Checks (fun _ _ => true) (fun a _ => unchecked a).
Lemma unchecked_satisfies E a j : unchecked a = true -> satisfies E a j = true.
Proof. destruct a as [[] [] [] [] [] ? [] []]; try discriminate. intros _. now destruct j. Qed.

Lemma table_formats text_ok doc table : (forall a j, meets text_ok a j = true -> satisfies (the_validator table) a j = true) ->
  table_of doc table = true -> validator text_ok "/$defs" doc (the_validator table).
Proof.
  intros HM H. constructor; [constructor; auto; intros k s _; destruct k; try reflexivity; intros []; reflexivity|split; reflexivity|now apply table_resolves].
Qed.
Lemma table_validator doc table : table_of doc table = true -> validator all_texts "/$defs" doc (the_validator table).
Proof. apply table_formats. intros a j. apply unchecked_satisfies. Qed.

(** The examples use the settings of draft 2020-12. *)
Definition ex_settings : settings unit := Settings "/$defs" (Some "https://json-schema.org/draft/2020-12/schema") [] false Serialize.
Lemma ex_plain : plain_settings "$defs" Serialize ex_settings.
Proof.
  constructor; try reflexivity.
  - exists "$defs". split; [reflexivity|discriminate].
  - split; reflexivity.
  - exists []. reflexivity.
  - split; [|split; discriminate]. intros H. assert (HX : existsb (String.eqb "$defs") used = true); [|vm_compute in HX; discriminate].
    apply existsb_exists. exists "$defs". split; [exact H|reflexivity].
Qed.
Definition doc_of (items : nat -> item rval) (t : rty) : json :=
  match root_schema_for (info items) (json_schema (info items) 20) t (new_gen ex_settings tt) with Some (d, _) => d | None => JNull end.
(** The document itself, then its definitions *)
Definition doc_table (doc : json) : list (string * json) :=
  ("#", doc) :: match defs_of doc with Some defs => map (fun nd => match nd with (n, d) => ("#/$defs/" ++ n, d)%string end) defs | None => [] end.

(** ** C42: standard types *)
Lemma std_supported items tok c t : std t -> weak_keys_free t -> supported items tok c t.
Proof.
  intros HS HW. constructor.
  - intros u i cs ts HR HU. apply (std_reach _ _ _ HS) in HR. exfalso. revert HU HR. induction u; cbn; try discriminate; auto.
  - intros u HR _. apply ident_plain, std_ident. eapply std_reach; eauto.
  - intros u u' HR HR' _. apply std_ids; eapply std_reach; eauto.
  - intros u HR. eapply weak_reach; eauto.
Qed.

Theorem C42_standard_values_validate_partial : forall St (items : nat -> item rval) text_ok tok c (s : settings St) st fuel t doc E v j,
  plain_settings tok c s -> std t -> weak_keys_free t -> root_document items s st fuel t doc ->
  validator text_ok (s_path s) doc E ->
  value_json items text_ok true t v = Some j -> valid D2020 E doc j = true.
Proof. intros. eapply values_validate; eauto. now apply std_supported. Qed.
Print Assumptions C42_standard_values_validate_partial.

(** A map from strings to vectors of Option<Result<Duration, HashSet<u8>>>: the document has two
    definitions, the hypotheses are met and the document is not trivial. *)
Definition ex_std : rty := TMap TStr (TSeq (TOption (TResult TDuration (TSet (TInt U8))))).
Definition no_items_r (n : nat) : item rval := Item "" "" None false (fun _ _ => Decl false (DStruct false Unit) []).
Definition ex_std_value : rval :=
  RMap [(RStr "k", RSeq [RNone; RSome (RVariant 0 [RSeq [RInt 5; RInt 6]]); RSome (RVariant 1 [RSeq [RInt 1; RInt 2]])])].
Example C42_example :
  let doc := doc_of no_items_r ex_std in
  let E := the_validator (doc_table doc) in
  plain_settings "$defs" Serialize ex_settings /\ std ex_std /\ weak_keys_free ex_std
  /\ root_document no_items_r ex_settings tt 20 ex_std doc
  /\ validator all_texts (s_path ex_settings) doc E
  /\ (exists j, value_json no_items_r all_texts true ex_std ex_std_value = Some j /\ valid D2020 E doc j = true)
  /\ valid D2020 E doc (JObj [("k", JArr [JObj [("Ok", JObj [("secs", JNum (NInt 5))])]])]) = false
  /\ valid D2020 E doc (JObj [("k", JArr [JObj [("Err", JArr [JNum (NInt 1); JNum (NInt 1)])]])]) = false.
Proof.
  cbv zeta. split; [apply ex_plain|]. split; [cbn; tauto|]. split; [cbn; tauto|].
  split; [eexists; vm_compute; reflexivity|]. split; [apply table_validator; vm_compute; reflexivity|].
  split; [eexists; split; vm_compute; reflexivity|]. split; vm_compute; reflexivity.
Qed.

(** What the strict values leave out. A value of type [t] for which serde_json gives [j], although every
    validator rejects [j]: *)
Definition rejected (items : nat -> item rval) (t : rty) (v : rval) (j : json) : Prop :=
  value_json items all_texts false t v = Some j
  /\ root_document items ex_settings tt 20 t (doc_of items t)
  /\ forall E, validator all_texts (s_path ex_settings) (doc_of items t) E -> valid D2020 E (doc_of items t) j = false.
Ltac reject := split; [vm_compute; reflexivity|split; [eexists; vm_compute; reflexivity|intros E _; vm_compute; reflexivity]].

(** a Weak<u8> whose referent is gone is null, *)
Theorem C42_dead_weak_refuted : rejected no_items_r (TWeak (TInt U8)) RDead JNull.
Proof. reject. Qed.
Print Assumptions C42_dead_weak_refuted.
(** f64::NAN is null, *)
Theorem C42_nan_refuted : rejected no_items_r TF64 (RFloat None) JNull.
Proof. reject. Qed.
Print Assumptions C42_nan_refuted.
(** and the set of [None] and [Some(None)] is [[null, null]] (its elements are different values). *)
Theorem C42_set_duplicates_refuted :
  rejected no_items_r (TSet (TOption (TOption (TInt U8)))) (RSeq [RNone; RSome RNone]) (JArr [JNull; JNull]).
Proof. reject. Qed.
Print Assumptions C42_set_duplicates_refuted.

(** ** A program for the examples *)
Lemma reach_list (items : nat -> item rval) L t u :
  In t L -> (forall x w, In x L -> In w (asked items x) -> In w L) -> reach items t u -> In u L.
Proof. intros HT HC. induction 1; eauto. Qed.

Definition fld (n : string) (t : rty) : field rval := Field n n t false false None false None false no_vattrs [].
Definition flat (n : string) (t : rty) : field rval := Field n n t false false None false None true no_vattrs [].
(** struct Node { value: i32, next: Option<Box<Node>>, #[serde(flatten)] span: Option<Span>, shape: Shape }
    #[serde(deny_unknown_fields)] struct Span { start: u32, end: u32 }
    #[serde(tag = "kind")] enum Shape { Empty, Circle { radius: f64 }, Line(Box<Span>) } *)
Definition ex_prog (n : nat) : item rval :=
  match n with
  | 0 => Item "app" "Node" None false (fun _ _ => Decl false (DStruct false (Struct
           [fld "value" (TInt I32); fld "next" (TOption (TFwd (TAdt 0 [] []))); flat "span" (TOption (TAdt 1 [] [])); fld "shape" (TAdt 2 [] [])]))
           [("description", JStr "A node")])
  | 1 => Item "app" "Span" None false (fun _ _ => Decl true (DStruct false (Struct [fld "start" (TInt U32); fld "end" (TInt U32)])) [])
  | _ => Item "app" "Shape" None false (fun _ _ => Decl false (DEnum (Internal "kind")
           [Variant "Empty" "Empty" false false false Unit [];
            Variant "Circle" "Circle" false false false (Struct [fld "radius" TF64]) [("description", JStr "Round")];
            Variant "Line" "Line" false false false (Newtype (fld "0" (TFwd (TAdt 1 [] [])))) []]) [])
  end.
Definition ex_types : list rty :=
  [TAdt 0 [] []; TAdt 1 [] []; TAdt 2 [] []; TFwd (TAdt 0 [] []); TFwd (TAdt 1 [] []); TOption (TFwd (TAdt 0 [] [])); TOption (TAdt 1 [] []);
   TUnit; TInt I32; TInt U32; TF64].

Lemma ex_closed x w : In x ex_types -> In w (asked ex_prog x) -> In w ex_types.
Proof.
  unfold ex_types. cbn [In]. intros HX. repeat (destruct HX as [<-|HX]; [cbn; intuition (subst; auto 20)|]). destruct HX.
Qed.
Lemma ex_meta tok : tok <> "description" -> wf_meta tok [("description", JStr "A node")] /\ wf_meta tok [("description", JStr "Round")].
Proof.
  intros HT. assert (HA : annotation "description" /\ "description" <> tok).
  { split; [|congruence]. split; intros H; [assert (HX : existsb (String.eqb "description") kws = true)|assert (HX : existsb (String.eqb "description") ctx = true)];
      try (apply existsb_exists; exists "description"; split; [exact H|reflexivity]); vm_compute in HX; discriminate. }
  split; intros k x [[= <- <-]|[]]; exact HA.
Qed.
Lemma ex_no_meta tok : wf_meta tok [].
Proof. intros k x []. Qed.

Lemma ex_span k : declares ex_prog (TAdt 1 [] []) k -> k = "start" \/ k = "end".
Proof.
  intros H. inversion H as [n cs ts def fs f k' HD HI HS HF|? ? ? ? ? HD|? ? ? ? ? HD|? ? ? ? ? ? ? ? ? HD|? ? ? ? ? ? ? HD]; subst; cbn in HD; try discriminate.
  injection HD as <- <-.
  cbn in HI. destruct HI as [<-|[<-|[]]]; inversion HF as [g HG|g k'' HG _]; subst; cbn in *; try discriminate; auto.
Qed.
Lemma fld_declares items n t k : field_declares items (fld n t) k -> k = n.
Proof. intros H. inversion H as [g HG|g k' HG _]; subst; cbn in *; [reflexivity|discriminate]. Qed.
Lemma flat_span_declares k : field_declares ex_prog (flat "span" (TOption (TAdt 1 [] []))) k -> k = "start" \/ k = "end".
Proof. intros H. inversion H as [g HG|g k' HG HX]; subst; cbn in *; [discriminate|]. now apply ex_span. Qed.

Lemma ex_supported_at tok c t : tok <> "description" -> In t ex_types -> supported ex_prog tok c t.
Proof.
  intros HD0 HT. assert (HL : forall u, reach ex_prog t u -> In u ex_types) by (intros u; apply reach_list; [exact HT|apply ex_closed]).
  constructor.
  - intros u i cs ts HR HU. apply HL in HR. revert HU. unfold ex_types in HR. cbn [In] in HR.
    assert (HD : forall n, n = 0 \/ n = 1 \/ n = 2 -> wf_decl ex_prog tok c (it_decl (ex_prog n) [] [])).
    { intros n [->|[->| ->]]; (constructor; [first [now apply ex_meta|apply ex_no_meta]|]); cbn [ex_prog it_decl d_data wf_style].
      - split; [|intros _; vm_compute; intuition (subst; auto)].
        constructor.
        + intros f Hf. cbn in Hf. repeat (destruct Hf as [<-|Hf]; [now constructor|]). destruct Hf.
        + intros f Hf. cbn in Hf. repeat (destruct Hf as [<-|Hf]; [apply ex_no_meta|]). destruct Hf.
        + intros f Hf _ HF. cbn in Hf. repeat (destruct Hf as [<-|Hf]; [try discriminate HF|]); [|destruct Hf].
          right. split; [left|intros HX; now elim HX]. exists 1, [], []. eexists _, _. split; [reflexivity|]. split; [reflexivity|].
          vm_compute. intuition (subst; auto).
        + repeat constructor; discriminate.
        + repeat constructor; intros _ _ k H1 H2;
            repeat first [apply fld_declares in H1|apply flat_span_declares in H1]; repeat first [apply fld_declares in H2|apply flat_span_declares in H2];
            repeat match goal with H : _ \/ _ |- _ => destruct H end; congruence.
      - split; [|intros _; vm_compute; intuition (subst; auto)].
        constructor.
        + intros f Hf. cbn in Hf. repeat (destruct Hf as [<-|Hf]; [now constructor|]). destruct Hf.
        + intros f Hf. cbn in Hf. repeat (destruct Hf as [<-|Hf]; [apply ex_no_meta|]). destruct Hf.
        + intros f Hf _ HF. cbn in Hf. repeat (destruct Hf as [<-|Hf]; [try discriminate HF|]). destruct Hf.
        + repeat constructor; discriminate.
        + repeat constructor; intros _ _ k H1 H2; apply fld_declares in H1; apply fld_declares in H2; congruence.
      - constructor.
        + discriminate.
        + intros v Hv _. cbn in Hv. repeat (destruct Hv as [<-|Hv]; [reflexivity|]). destruct Hv.
        + intros v Hv _. cbn in Hv. repeat (destruct Hv as [<-|Hv]; [|]); [| | |destruct Hv].
          * constructor; [reflexivity|apply ex_no_meta|exact I|discriminate|intros; exact I].
          * constructor; [reflexivity|now apply ex_meta| |discriminate|].
            -- split; [|discriminate]. constructor; [intros f [<-|[]]; now constructor|intros f [<-|[]]; apply ex_no_meta|intros f [<-|[]] _; discriminate|repeat constructor|repeat constructor].
            -- intros tag [= <-] _. split; [intros f [<-|[]]; reflexivity|]. intros f [<-|[]] _ H. apply fld_declares in H. discriminate.
          * constructor; [reflexivity|apply ex_no_meta|split; [apply ex_no_meta|reflexivity]|intros f [= <-]; reflexivity|].
            intros tag [= <-] _. split; [reflexivity|]. exists 1, [], []. eexists _, _. split; [reflexivity|]. split; [reflexivity|].
            split; [vm_compute; intuition (subst; auto)|]. intros H. apply ex_span in H. destruct H; discriminate.
        + cbn. repeat constructor; cbn; intuition discriminate.
        + discriminate. }
    repeat (destruct HR as [<-|HR]; [cbn [unwrap]; first [discriminate|intros [= <- <- <-]; apply HD; tauto]|]). destruct HR.
  - intros u HR HI. apply HL in HR. unfold ex_types in HR. cbn [In] in HR.
    repeat (destruct HR as [<-|HR]; [first [discriminate HI|split; vm_compute; reflexivity]|]). destruct HR.
  - intros u u' HR HR' HI HE. apply HL in HR. apply HL in HR'. unfold ex_types in HR, HR'. cbn [In] in HR, HR'.
    repeat (destruct HR as [<-|HR]; [first [discriminate HI|clear HI; repeat (destruct HR' as [<-|HR']; [first [reflexivity|discriminate HE]|]); destruct HR']|]). destruct HR.
  - intros u HR. apply HL in HR. unfold ex_types in HR. cbn [In] in HR. repeat (destruct HR as [<-|HR]; [exact I|]). destruct HR.
Qed.
Lemma ex_supported c t : In t ex_types -> supported ex_prog "$defs" c t.
Proof. apply ex_supported_at. discriminate. Qed.

(** ** C46: structs *)
Definition struct_type (items : nat -> item rval) (t : rty) : Prop :=
  exists i cs ts def s, t = TAdt i cs ts /\ d_data (it_decl (items i) cs ts) = DStruct def s.

Theorem C46_struct_values_validate_partial : forall St (items : nat -> item rval) text_ok tok c (s : settings St) st fuel t doc E v j,
  plain_settings tok c s -> struct_type items t -> supported items tok c t -> root_document items s st fuel t doc ->
  validator text_ok (s_path s) doc E ->
  value_json items text_ok true t v = Some j -> valid D2020 E doc j = true.
Proof. intros. eapply values_validate; eauto. Qed.
Print Assumptions C46_struct_values_validate_partial.

Example C46_example :
  let doc := doc_of ex_prog (TAdt 0 [] []) in
  let E := the_validator (doc_table doc) in
  plain_settings "$defs" Serialize ex_settings /\ struct_type ex_prog (TAdt 0 [] []) /\ supported ex_prog "$defs" Serialize (TAdt 0 [] [])
  /\ root_document ex_prog ex_settings tt 20 (TAdt 0 [] []) doc
  /\ validator all_texts (s_path ex_settings) doc E
  /\ (exists j, value_json ex_prog all_texts true (TAdt 0 [] [])
        (RSeq [RInt 7; RSome (RSeq [RInt 8; RNone; RNone; RVariant 0 []]); RSome (RSeq [RInt 1; RInt 2]); RVariant 2 [RSeq [RInt 3; RInt 4]]]) = Some j
      /\ j = JObj [("end", JNum (NInt 2)); ("next", JObj [("next", JNull); ("shape", JObj [("kind", JStr "Empty")]); ("value", JNum (NInt 8))]);
                   ("shape", JObj [("end", JNum (NInt 4)); ("kind", JStr "Line"); ("start", JNum (NInt 3))]); ("start", JNum (NInt 1)); ("value", JNum (NInt 7))]
      /\ valid D2020 E doc j = true)
  /\ valid D2020 E doc (JObj [("next", JObj [("next", JNull); ("shape", JObj [("kind", JStr "Square")]); ("value", JNum (NInt 8))]);
                              ("shape", JObj [("kind", JStr "Empty")]); ("value", JNum (NInt 8))]) = false.
Proof.
  cbv zeta. split; [apply ex_plain|]. split; [eexists _, _, _, _, _; split; reflexivity|]. split; [apply ex_supported; cbn; auto|].
  split; [eexists; vm_compute; reflexivity|]. split; [apply table_validator; vm_compute; reflexivity|].
  split; [eexists; split; [vm_compute; reflexivity|split; vm_compute; reflexivity]|]. vm_compute; reflexivity.
Qed.

(** A struct with a flattened map:
    struct Page { id: u32, #[serde(skip_serializing_if = "Option::is_none")] note: Option<String>,
                  #[serde(flatten)] links: Option<HashMap<String, Vec<u8>>> } *)
Definition is_none (v : rval) : bool := match v with RNone => true | _ => false end.
Definition ex_note : field rval := Field "note" "note" (TOption TStr) false false (Some is_none) false None false no_vattrs [].
Definition ex_page : decl rval :=
  Decl false (DStruct false (Struct [fld "id" (TInt U32); ex_note; flat "links" (TOption (TMap TStr (TSeq (TInt U8))))])) [].
Definition ex_pages (n : nat) : item rval := Item "app" "Page" None false (fun _ _ => ex_page).
Definition ex_page_types : list rty :=
  [TAdt 0 [] []; TUnit; TInt U32; TStr; TOption TStr; TMap TStr (TSeq (TInt U8)); TOption (TMap TStr (TSeq (TInt U8))); TSeq (TInt U8); TInt U8].

Lemma ex_pages_supported c : supported ex_pages "$defs" c (TAdt 0 [] []).
Proof.
  assert (HL : forall u, reach ex_pages (TAdt 0 [] []) u -> In u ex_page_types).
  { intros u. apply reach_list; [now left|]. intros x w HX. unfold ex_page_types in *. cbn [In] in HX.
    repeat (destruct HX as [<-|HX]; [cbn; intuition (subst; auto 20)|]). destruct HX. }
  constructor.
  - intros u i cs ts HR HU. apply HL in HR. unfold ex_page_types in HR. cbn [In] in HR.
    repeat (destruct HR as [<-|HR]; [try discriminate HU|]); [|destruct HR]. injection HU as <- <- <-.
    constructor; [apply ex_no_meta|]. cbn [ex_pages ex_page it_decl d_data d_deny wf_style]. split; [|discriminate].
    constructor.
    + intros f Hf. cbn in Hf. repeat (destruct Hf as [<-|Hf]; [constructor; auto|]). destruct Hf.
    + intros f Hf. cbn in Hf. repeat (destruct Hf as [<-|Hf]; [apply ex_no_meta|]). destruct Hf.
    + intros f Hf _ HF. cbn in Hf. repeat (destruct Hf as [<-|Hf]; [try discriminate HF|]); [|destruct Hf].
      left. eexists. reflexivity.
    + repeat constructor; discriminate.
    + assert (HM : forall k, ~ field_declares ex_pages (flat "links" (TOption (TMap TStr (TSeq (TInt U8))))) k).
      { intros k H. inversion H as [g HG|g k' HG HX]; subst; [discriminate HG|]. inversion HX. }
      assert (HN : forall k, field_declares ex_pages ex_note k -> k = "note").
      { intros k H. inversion H as [g HG|g k' HG HX]; subst; [reflexivity|discriminate HG]. }
      repeat constructor; intros _ _ k H1 H2; repeat first [now apply HM in H1|now apply HM in H2|apply HN in H1|apply HN in H2|apply fld_declares in H1|apply fld_declares in H2]; congruence.
  - intros u HR HI. apply HL in HR. unfold ex_page_types in HR. cbn [In] in HR.
    repeat (destruct HR as [<-|HR]; [first [discriminate HI|split; vm_compute; reflexivity]|]). destruct HR.
  - intros u u' HR HR' HI HE. apply HL in HR. apply HL in HR'. unfold ex_page_types in HR, HR'. cbn [In] in HR, HR'.
    repeat (destruct HR as [<-|HR]; [first [discriminate HI|clear HI; repeat (destruct HR' as [<-|HR']; [first [reflexivity|discriminate HE]|]); destruct HR']|]). destruct HR.
  - intros u HR. apply HL in HR. unfold ex_page_types in HR. cbn [In] in HR. repeat (destruct HR as [<-|HR]; [cbn; tauto|]). destruct HR.
Qed.

Example C46_map_example :
  let doc := doc_of ex_pages (TAdt 0 [] []) in
  let E := the_validator (doc_table doc) in
  struct_type ex_pages (TAdt 0 [] []) /\ supported ex_pages "$defs" Serialize (TAdt 0 [] [])
  /\ root_document ex_pages ex_settings tt 20 (TAdt 0 [] []) doc
  /\ validator all_texts (s_path ex_settings) doc E
  /\ (exists j, value_json ex_pages all_texts true (TAdt 0 [] [])
        (RSeq [RInt 7; RNone; RSome (RMap [(RStr "a", RSeq [RInt 1]); (RStr "b", RSeq [])])]) = Some j
      /\ j = JObj [("a", JArr [JNum (NInt 1)]); ("b", JArr []); ("id", JNum (NInt 7))]
      /\ valid D2020 E doc j = true)
  /\ valid D2020 E doc (JObj [("a", JNum (NInt 1)); ("id", JNum (NInt 7))]) = false.
Proof.
  cbv zeta. split; [eexists _, _, _, _, _; split; reflexivity|]. split; [apply ex_pages_supported|].
  split; [eexists; vm_compute; reflexivity|]. split; [apply table_validator; vm_compute; reflexivity|].
  split; [eexists; split; [vm_compute; reflexivity|split; vm_compute; reflexivity]|]. vm_compute; reflexivity.
Qed.

(** Flattened enums:
    struct Event { id: u32, #[serde(flatten)] kind: Kind, #[serde(flatten)] level: Option<Level> }
    #[serde(tag = "kind", deny_unknown_fields)] enum Kind { Start, Move { x: i32 } }
    enum Level { Low, High(u8) } *)
Definition ex_events (n : nat) : item rval :=
  match n with
  | 0 => Item "app" "Event" None false (fun _ _ => Decl false (DStruct false (Struct
           [fld "id" (TInt U32); flat "kind" (TAdt 1 [] []); flat "level" (TOption (TAdt 2 [] []))])) [])
  | 1 => Item "app" "Kind" None false (fun _ _ => Decl true (DEnum (Internal "kind")
           [Variant "Start" "Start" false false false Unit []; Variant "Move" "Move" false false false (Struct [fld "x" (TInt I32)]) []]) [])
  | _ => Item "app" "Level" None false (fun _ _ => Decl false (DEnum External
           [Variant "Low" "Low" false false false Unit []; Variant "High" "High" false false false (Newtype (fld "0" (TInt U8))) []]) [])
  end.
Definition ex_event_types : list rty :=
  [TAdt 0 [] []; TAdt 1 [] []; TAdt 2 [] []; TOption (TAdt 2 [] []); TUnit; TInt U32; TInt I32; TInt U8].

Lemma ex_kind k : declares ex_events (TAdt 1 [] []) k -> k = "kind" \/ k = "x".
Proof.
  intros H. inversion H as [? ? ? ? ? ? ? HD|? ? ? ? ? HD|? ? ? ? ? HD|? ? ? ? ? w fs f k' HD HI HS HSt HF _ HX|? ? ? ? ? ? ? HD]; subst; cbn in HD; try discriminate.
  - injection HD as <- <-. now left.
  - injection HD as <- <-. cbn in HI. destruct HI as [<-|[<-|[]]]; cbn in HSt; try discriminate. injection HSt as <-.
    destruct HF as [<-|[]]. apply fld_declares in HX. auto.
Qed.
Lemma ex_level k : declares ex_events (TAdt 2 [] []) k -> k = "Low" \/ k = "High".
Proof.
  intros H. inversion H as [? ? ? ? ? ? ? HD|? ? ? ? ? HD HI|? ? ? ? ? HD|? ? ? ? ? ? ? ? ? HD|? ? ? ? ? ? ? HD]; subst; cbn in HD; try discriminate.
  injection HD as <-. cbn in HI. destruct HI as [<-|[<-|[]]]; cbn; auto.
Qed.

Lemma ex_events_supported c : supported ex_events "$defs" c (TAdt 0 [] []).
Proof.
  assert (HL : forall u, reach ex_events (TAdt 0 [] []) u -> In u ex_event_types).
  { intros u. apply reach_list; [now left|]. intros x w HX. unfold ex_event_types in *. cbn [In] in HX.
    repeat (destruct HX as [<-|HX]; [cbn; intuition (subst; auto 20)|]). destruct HX. }
  constructor.
  - intros u i cs ts HR HU. apply HL in HR. revert HU. unfold ex_event_types in HR. cbn [In] in HR.
    assert (HD : forall n, n = 0 \/ n = 1 \/ n = 2 -> wf_decl ex_events "$defs" c (it_decl (ex_events n) [] [])).
    { intros n [->|[->| ->]]; (constructor; [apply ex_no_meta|]); cbn [ex_events it_decl d_data d_deny wf_data].
      - split; [|discriminate]. constructor.
        + intros f Hf. cbn in Hf. repeat (destruct Hf as [<-|Hf]; [now constructor|]). destruct Hf.
        + intros f Hf. cbn in Hf. repeat (destruct Hf as [<-|Hf]; [apply ex_no_meta|]). destruct Hf.
        + intros f Hf _ HF. cbn in Hf. repeat (destruct Hf as [<-|Hf]; [try discriminate HF|]); [| |destruct Hf];
            (right; split; [right|intros HX; now elim HX]).
          * exists 1, [], []. eexists _, _. split; [reflexivity|]. split; [reflexivity|]. split; [discriminate|].
            split; intros w Hw; cbn in Hw; repeat (destruct Hw as [<-|Hw]; [try reflexivity|]); try (destruct Hw); try (intros _; exact I).
            intros _. cbn. intros f [<-|[]]. reflexivity.
          * exists 2, [], []. eexists _, _. split; [reflexivity|]. split; [reflexivity|]. split; [discriminate|].
            split; intros w Hw; cbn in Hw; repeat (destruct Hw as [<-|Hw]; [reflexivity || (intros _ HX; (reflexivity || discriminate HX))|]); destruct Hw.
        + repeat constructor; cbn; auto.
        + assert (HK : forall k, field_declares ex_events (flat "kind" (TAdt 1 [] [])) k -> k = "kind" \/ k = "x").
          { intros k H. inversion H as [g HG|g k' HG HX]; subst; [discriminate HG|]. now apply ex_kind. }
          assert (HV : forall k, field_declares ex_events (flat "level" (TOption (TAdt 2 [] []))) k -> k = "Low" \/ k = "High").
          { intros k H. inversion H as [g HG|g k' HG HX]; subst; [discriminate HG|]. now apply ex_level. }
          repeat constructor; intros _ _ k H1 H2;
            repeat first [apply HK in H1|apply HV in H1|apply fld_declares in H1]; repeat first [apply HK in H2|apply HV in H2|apply fld_declares in H2];
            repeat match goal with H : _ \/ _ |- _ => destruct H end; congruence.
      - constructor.
        + discriminate.
        + intros v Hv _. cbn in Hv. repeat (destruct Hv as [<-|Hv]; [reflexivity|]). destruct Hv.
        + intros v Hv _. cbn in Hv. repeat (destruct Hv as [<-|Hv]; [|]); [| |destruct Hv].
          * constructor; [reflexivity|apply ex_no_meta|exact I|discriminate|intros; exact I].
          * constructor; [reflexivity|apply ex_no_meta| |discriminate|].
            -- split; [|intros _ f [<-|[]]; reflexivity]. constructor; [intros f [<-|[]]; now constructor|intros f [<-|[]]; apply ex_no_meta|intros f [<-|[]] _; discriminate|repeat constructor|repeat constructor].
            -- intros tag [= <-] _. split; [intros f [<-|[]]; reflexivity|]. intros f [<-|[]] _ H. apply fld_declares in H. discriminate.
        + cbn. repeat constructor; cbn; intuition discriminate.
        + discriminate.
      - constructor.
        + discriminate.
        + intros v Hv _. cbn in Hv. repeat (destruct Hv as [<-|Hv]; [reflexivity|]). destruct Hv.
        + intros v Hv _. cbn in Hv. repeat (destruct Hv as [<-|Hv]; [|]); [| |destruct Hv].
          * constructor; [reflexivity|apply ex_no_meta|exact I|discriminate|intros; exact I].
          * constructor; [reflexivity|apply ex_no_meta|split; [apply ex_no_meta|reflexivity]|intros f [= <-]; reflexivity|discriminate].
        + cbn. repeat constructor; cbn; intuition discriminate.
        + discriminate. }
    repeat (destruct HR as [<-|HR]; [cbn [unwrap]; first [discriminate|intros [= <- <- <-]; apply HD; tauto]|]). destruct HR.
  - intros u HR HI. apply HL in HR. unfold ex_event_types in HR. cbn [In] in HR.
    repeat (destruct HR as [<-|HR]; [first [discriminate HI|split; vm_compute; reflexivity]|]). destruct HR.
  - intros u u' HR HR' HI HE. apply HL in HR. apply HL in HR'. unfold ex_event_types in HR, HR'. cbn [In] in HR, HR'.
    repeat (destruct HR as [<-|HR]; [first [discriminate HI|clear HI; repeat (destruct HR' as [<-|HR']; [first [reflexivity|discriminate HE]|]); destruct HR']|]). destruct HR.
  - intros u HR. apply HL in HR. unfold ex_event_types in HR. cbn [In] in HR. repeat (destruct HR as [<-|HR]; [cbn; tauto|]). destruct HR.
Qed.

Example C46_flattened_enums_example :
  let doc := doc_of ex_events (TAdt 0 [] []) in
  let E := the_validator (doc_table doc) in
  struct_type ex_events (TAdt 0 [] []) /\ supported ex_events "$defs" Serialize (TAdt 0 [] [])
  /\ root_document ex_events ex_settings tt 20 (TAdt 0 [] []) doc
  /\ validator all_texts (s_path ex_settings) doc E
  /\ (exists j, value_json ex_events all_texts true (TAdt 0 [] []) (RSeq [RInt 7; RVariant 1 [RInt (-3)]; RSome (RVariant 0 [])]) = Some j
      /\ j = JObj [("Low", JNull); ("id", JNum (NInt 7)); ("kind", JStr "Move"); ("x", JNum (NInt (-3)))]
      /\ valid D2020 E doc j = true)
  /\ (exists j, value_json ex_events all_texts true (TAdt 0 [] []) (RSeq [RInt 7; RVariant 0 []; RNone]) = Some j
      /\ j = JObj [("id", JNum (NInt 7)); ("kind", JStr "Start")]
      /\ valid D2020 E doc j = true)
  /\ valid D2020 E doc (JObj [("id", JNum (NInt 7)); ("kind", JStr "Move")]) = false
  /\ valid D2020 E doc (JObj [("High", JNum (NInt 7)); ("id", JNum (NInt 7))]) = false.
Proof.
  cbv zeta. split; [eexists _, _, _, _, _; split; reflexivity|]. split; [apply ex_events_supported|].
  split; [eexists; vm_compute; reflexivity|]. split; [apply table_validator; vm_compute; reflexivity|].
  split; [eexists; split; [vm_compute; reflexivity|split; vm_compute; reflexivity]|].
  split; [eexists; split; [vm_compute; reflexivity|split; vm_compute; reflexivity]|]. split; vm_compute; reflexivity.
Qed.

(** Types of other crates:
    struct Job { id: Uuid, choice: Either<u8, ArrayVec<String, 2>>, wait: TimeDelta, body: Bytes } *)
Definition ex_job : decl rval :=
  Decl false (DStruct false (Struct [fld "id" (TText Uuid); fld "choice" (TEither (TInt U8) (TArrayVec 2 TStr)); fld "wait" TTimeDelta; fld "body" TBytes])) [].
Definition ex_jobs (n : nat) : item rval := Item "app" "Job" None false (fun _ _ => ex_job).
Definition ex_job_types : list rty :=
  [TAdt 0 [] []; TUnit; TText Uuid; TEither (TInt U8) (TArrayVec 2 TStr); TInt U8; TArrayVec 2 TStr; TStr; TTimeDelta; TInt I64; TInt I32; TBytes].

Lemma ex_jobs_supported c : supported ex_jobs "$defs" c (TAdt 0 [] []).
Proof.
  assert (HL : forall u, reach ex_jobs (TAdt 0 [] []) u -> In u ex_job_types).
  { intros u. apply reach_list; [now left|]. intros x w HX. unfold ex_job_types in *. cbn [In] in HX.
    repeat (destruct HX as [<-|HX]; [cbn; intuition (subst; auto 20)|]). destruct HX. }
  constructor.
  - intros u i cs ts HR HU. apply HL in HR. unfold ex_job_types in HR. cbn [In] in HR.
    repeat (destruct HR as [<-|HR]; [try discriminate HU|]); [|destruct HR]. injection HU as <- <- <-.
    constructor; [apply ex_no_meta|]. cbn [ex_jobs ex_job it_decl d_data d_deny wf_style]. split; [|discriminate].
    constructor.
    + intros f Hf. cbn in Hf. repeat (destruct Hf as [<-|Hf]; [constructor; auto|]). destruct Hf.
    + intros f Hf. cbn in Hf. repeat (destruct Hf as [<-|Hf]; [apply ex_no_meta|]). destruct Hf.
    + intros f Hf _ HF. cbn in Hf. repeat (destruct Hf as [<-|Hf]; [try discriminate HF|]). destruct Hf.
    + repeat constructor; discriminate.
    + repeat constructor; intros _ _ k H1 H2; apply fld_declares in H1, H2; congruence.
  - intros u HR HI. apply HL in HR. unfold ex_job_types in HR. cbn [In] in HR.
    repeat (destruct HR as [<-|HR]; [first [discriminate HI|split; vm_compute; reflexivity]|]). destruct HR.
  - intros u u' HR HR' HI HE. apply HL in HR. apply HL in HR'. unfold ex_job_types in HR, HR'. cbn [In] in HR, HR'.
    repeat (destruct HR as [<-|HR]; [first [discriminate HI|clear HI; repeat (destruct HR' as [<-|HR']; [first [reflexivity|discriminate HE]|]); destruct HR']|]). destruct HR.
  - intros u HR. apply HL in HR. unfold ex_job_types in HR. cbn [In] in HR. repeat (destruct HR as [<-|HR]; [cbn; tauto|]). destruct HR.
Qed.

Example C46_other_crates_example :
  let doc := doc_of ex_jobs (TAdt 0 [] []) in
  let E := the_validator (doc_table doc) in
  struct_type ex_jobs (TAdt 0 [] []) /\ supported ex_jobs "$defs" Serialize (TAdt 0 [] [])
  /\ root_document ex_jobs ex_settings tt 20 (TAdt 0 [] []) doc
  /\ validator all_texts (s_path ex_settings) doc E
  /\ (exists j, value_json ex_jobs all_texts true (TAdt 0 [] [])
        (RSeq [RStr "f81d4fae-7dec-11d0-a765-00a0c91e6bf6"; RVariant 1 [RSeq [RStr "a"; RStr "b"]]; RSeq [RInt (-1); RInt 999999999]; RSeq [RInt 0; RInt 255]]) = Some j
      /\ j = JObj [("body", JArr [JNum (NInt 0); JNum (NInt 255)]); ("choice", JObj [("Right", JArr [JStr "a"; JStr "b"])]);
                   ("id", JStr "f81d4fae-7dec-11d0-a765-00a0c91e6bf6"); ("wait", JArr [JNum (NInt (-1)); JNum (NInt 999999999)])]
      /\ valid D2020 E doc j = true)
  /\ valid D2020 E doc (JObj [("body", JArr []); ("choice", JObj [("Right", JArr [JStr "a"; JStr "b"; JStr "c"])]);
                              ("id", JStr ""); ("wait", JArr [JNum (NInt 1); JNum (NInt 1)])]) = false.
Proof.
  cbv zeta. split; [eexists _, _, _, _, _; split; reflexivity|]. split; [apply ex_jobs_supported|].
  split; [eexists; vm_compute; reflexivity|]. split; [apply table_validator; vm_compute; reflexivity|].
  split; [eexists; split; [vm_compute; reflexivity|split; vm_compute; reflexivity]|]. vm_compute; reflexivity.
Qed.

(** What [supported] and the strict values leave out. One declaration, or two: *)
Definition one_item (d : decl rval) (n : nat) : item rval := match n with 0 => Item "app" "T" None false (fun _ _ => d) | _ => ex_prog n end.
Definition skipped_if_true (f : field rval) : field rval :=
  Field (f_ser f) (f_de f) (f_ty f) (f_skip_ser f) (f_skip_de f) (Some (fun _ => true)) (f_default f) (f_default_value f) (f_flatten f) (f_valid f) (f_meta f).

(** struct T(u8, #[serde(skip_serializing_if = "...")] u8): when the element is skipped the array is too short. *)
Theorem C46_skipped_element_refuted :
  rejected (one_item (Decl false (DStruct false (Tuple [fld "0" (TInt U8); skipped_if_true (fld "1" (TInt U8))])) []))
    (TAdt 0 [] []) (RSeq [RInt 1; RInt 2]) (JArr [JNum (NInt 1)]).
Proof. reject. Qed.
Print Assumptions C46_skipped_element_refuted.
(** struct T { a: u8, #[serde(flatten, skip_serializing_if = "...")] span: Span }: when the field is
    skipped, the properties of Span are missing but required. *)
Theorem C46_skipped_flatten_refuted :
  rejected (one_item (Decl false (DStruct false (Struct [fld "a" (TInt U8); skipped_if_true (flat "span" (TAdt 1 [] []))])) []))
    (TAdt 0 [] []) (RSeq [RInt 1; RSeq [RInt 2; RInt 3]]) (JObj [("a", JNum (NInt 1))]).
Proof. reject. Qed.
Print Assumptions C46_skipped_flatten_refuted.
(** struct T { #[schemars(required)] a: Option<u8> }: [None] is serialized as null. *)
Theorem C46_required_none_refuted :
  rejected (one_item (Decl false (DStruct false (Struct [Field "a" "a" (TOption (TInt U8)) false false None false None false only_required []])) []))
    (TAdt 0 [] []) (RSeq [RNone]) (JObj [("a", JNull)]).
Proof. reject. Qed.
Print Assumptions C46_required_none_refuted.

(** In [Page] above, the map of a page without a note has an entry "note" that is not a string. *)
Theorem C46_flattened_map_key_refuted :
  rejected ex_pages (TAdt 0 [] []) (RSeq [RInt 7; RNone; RSome (RMap [(RStr "note", RSeq [RInt 1])])])
    (JObj [("id", JNum (NInt 7)); ("note", JArr [JNum (NInt 1)])]).
Proof.
  split; [vm_compute; reflexivity|split; [eexists; vm_compute; reflexivity|]]. intros E _. vm_compute.
  destruct E as [r x f]. destruct (f "uint32" (JNum (NInt 7))); reflexivity.
Qed.
Print Assumptions C46_flattened_map_key_refuted.

(** struct T { #[serde(flatten)] e: U } with enum U { /** documented */ A, B(u8) }: T { e: A } is
    {"A": null}, but the schema of a documented unit variant is no part of an "enum" list, so
    it is still that of the string "A". *)
Definition two_items (d d' : decl rval) (n : nat) : item rval :=
  match n with 0 => Item "app" "T" None false (fun _ _ => d) | _ => Item "app" "U" None false (fun _ _ => d') end.
Theorem C46_flattened_documented_unit_refuted :
  rejected (two_items (Decl false (DStruct false (Struct [flat "e" (TAdt 1 [] [])])) [])
                      (Decl false (DEnum External [Variant "A" "A" false false false Unit [("description", JStr "documented")];
                                                   Variant "B" "B" false false false (Newtype (fld "0" (TInt U8))) []]) []))
    (TAdt 0 [] []) (RSeq [RVariant 0 []]) (JObj [("A", JNull)]).
Proof. reject. Qed.
Print Assumptions C46_flattened_documented_unit_refuted.
(** The same with untagged variants: #[serde(untagged)] enum U { A(Span) } where Span denies unknown
    fields: Span is only referred to, so it is not opened and rejects the other fields of T. *)
Theorem C46_flattened_untagged_refuted :
  rejected (fun n => match n with
                     | 0 => Item "app" "T" None false (fun _ _ => Decl false (DStruct false (Struct [fld "a" (TInt U8); flat "e" (TAdt 2 [] [])])) [])
                     | 1 => ex_prog 1
                     | _ => Item "app" "U" None false (fun _ _ => Decl false (DEnum Untagged
                              [Variant "A" "A" false false false (Newtype (fld "0" (TAdt 1 [] []))) []]) [])
                     end)
    (TAdt 0 [] []) (RSeq [RInt 1; RVariant 0 [RSeq [RInt 2; RInt 3]]]) (JObj [("a", jz 1); ("end", jz 3); ("start", jz 2)]).
Proof.
  split; [vm_compute; reflexivity|split; [eexists; vm_compute; reflexivity|]]. intros E HV.
  match goal with |- valid _ _ ?x _ = false => let d := eval vm_compute in x in assert (HD : x = d) by (vm_compute; reflexivity); rewrite HD in *; clear HD end.
  pose proof (va_refs _ _ _ _ HV "/$defs/Span" _ (JObj [("a", jz 1); ("end", jz 3); ("start", jz 2)])
    (or_intror (ex_intro _ "Span" (conj (conj eq_refl eq_refl) (or_intror eq_refl)))) eq_refl) as HR.
  match type of HR with _ = ?b => assert (HB : b = false) by (apply not_true_iff_false; intros H; rewrite valid_kw in H; specialize (H "additionalProperties" _ eq_refl); vm_compute in H; discriminate) end. rewrite HB in HR. clear HB HV.
  apply not_true_iff_false. intros H. rewrite valid_kw in H. specialize (H "anyOf" _ eq_refl).
  apply existsb_exists in H as (f & [<-|[]] & H).
  change (valid D2020 E (JObj [("$ref", JStr "#/$defs/Span")]) (JObj [("a", jz 1); ("end", jz 3); ("start", jz 2)]) = true) in H.
  rewrite valid_kw in H. specialize (H "$ref" _ eq_refl). exact (eq_true_false_abs _ H HR).
Qed.
Print Assumptions C46_flattened_untagged_refuted.

(** ** C47: enums *)
Definition enum_type (items : nat -> item rval) (t : rty) : Prop :=
  exists i cs ts tg vs, t = TAdt i cs ts /\ d_data (it_decl (items i) cs ts) = DEnum tg vs.
(** Exactly one of [ss] accepts [j]. *)
Definition exactly_one (E : env) (ss : list json) (j : json) : Prop :=
  exists a s b, ss = a ++ s :: b /\ valid D2020 E s j = true /\ forall s', In s' (a ++ b) -> valid D2020 E s' j = false.
Definition some_accepts (E : env) (ss : list json) (j : json) : Prop := exists s, In s ss /\ valid D2020 E s j = true.

Section EnumDocument.
Context {St : Type}.
Variable items : nat -> item rval.
Variable tok : string.
Variable s : settings St.
Variable c : contract.
Hypothesis HS : plain_settings tok c s.

Lemma root_keeps_key t sch defs key : In key (kws ++ ctx) ->
  mget key (add_definitions (s_path s) (root_object (info items) t s sch) defs) = mget key (ensure_obj sch).
Proof.
  intros HK. destruct (ps_tok _ _ _ HS) as [more HT]. destruct (ps_fresh _ _ _ HS) as (F1 & F2 & F3).
  rewrite (root_object_of (info items) t s sch defs (s_path s) (ps_path _ _ _ HS) key).
  - destruct (String.eqb_spec key "$schema") as [->|]; [|destruct (String.eqb_spec key "title") as [->|]; [|reflexivity]]; exfalso; cbn in HK;
      repeat (destruct HK as [HK|HK]; [discriminate|]); exact HK.
  - intros a ts HA. rewrite HT in HA. injection HA as <- <-. intros ->. apply F1. unfold used. rewrite app_assoc. apply in_app_iff. now left.
Qed.

Lemma enum_document st fuel i cs ts tg vs doc :
  root_document items s st fuel (TAdt i cs ts) doc -> wf_decl items tok c (it_decl (items i) cs ts) ->
  d_data (it_decl (items i) cs ts) = DEnum tg vs -> (tg = External -> exists v, In v vs /\ plain_unit v = false) ->
  lists (enum_keyword tg vs) (enum_branches c tg vs) doc.
Proof.
  intros [g' HR] HW HD HC.
  destruct (root_derives (info items) (reach items (TAdt i cs ts)) fuel (TAdt i cs ts) s st doc g') as (gf & sch & H1 & H2 & H3 & _); auto.
  { apply reach_closed. } { apply reach_refl. } { apply (ps_transforms _ _ _ HS). }
  assert (HK : forall key n, In key (kws ++ ctx) -> lists key n sch -> lists key n doc).
  { intros key n Hk (m & ss & -> & Hm & HL). subst doc. eexists _, ss. refine (conj eq_refl (conj _ HL)). now rewrite root_keeps_key. }
  apply HK.
  { unfold enum_keyword. destruct tg; try destruct (existsb _ _); apply (existsb_In _ (kws ++ ctx)); vm_compute; reflexivity. }
  inversion H2 as [u' s' HRn]; subst u' s'. cbn [info t_body body] in HRn.
  refine (run_post (info items) _ _ _ _ (fun _ _ => True) (fun _ _ => True) _ _ sch HRn _ _ _ _); auto. cbn [post]. rewrite H1, (ps_contract _ _ _ HS).
  unfold decl_prog. rewrite HD. destruct HW as [HM HDa]. rewrite HD in HDa. apply shape_enum.
  - apply (we_some _ _ _ _ _ _ HDa).
  - exact HC.
  - intros w Hc. cbn [post]. apply lists_meta; [|exact Hc]. intros k x Hk ->. destruct (HM _ _ Hk) as [HA _].
    unfold enum_keyword in HA. destruct tg; try destruct (existsb _ _); unfold annotation in HA; cbn in HA; tauto.
Qed.
End EnumDocument.

Lemma exactly_one_spec E ss j : List.length (filter (fun s => valid D2020 E s j) ss) = 1 -> exactly_one E ss j.
Proof.
  induction ss as [|s ss IH]; [discriminate|]. cbn [filter]. destruct (valid D2020 E s j) eqn:ES.
  - cbn [List.length]. intros [= H]. exists [], s, ss. refine (conj eq_refl (conj ES _)). intros s' Hs'. cbn in Hs'.
    destruct (valid D2020 E s' j) eqn:E'; [|reflexivity]. assert (HX : In s' (filter (fun s => valid D2020 E s j) ss)) by (now apply filter_In).
    destruct (filter _ ss); [destruct HX|discriminate].
  - intros H. destruct (IH H) as (a & x & b & -> & H1 & H2). exists (s :: a), x, b. refine (conj eq_refl (conj H1 _)).
    intros s' [<-|Hs']; auto.
Qed.

Lemma lists_valid E key n doc j : lists key n doc -> valid D2020 E doc j = true ->
  exists ss, s_get key doc = Some (JArr ss) /\ List.length ss = n
    /\ (key = "oneOf" -> exactly_one E ss j) /\ (key = "anyOf" -> some_accepts E ss j).
Proof.
  intros (m & ss & -> & Hm & HL) HV. exists ss. refine (conj Hm (conj HL _)). rewrite valid_kw in HV. specialize (HV key (JArr ss) Hm).
  split; intros ->.
  - apply exactly_one_spec. change (chk_one (Some (sub_of D2020 E (JArr ss))) j = true) in HV.
    apply Nat.eqb_eq. rewrite <- HV. unfold chk_one, count_ok. cbn [arr_of sub_of s_arr]. f_equal. clear.
    induction ss as [|x ss IH]; [reflexivity|]. cbn [map filter].
    change (ok (eval D2020 E x j)) with (valid D2020 E x j). destruct (valid D2020 E x j); cbn [List.length]; now rewrite IH.
  - change (chk_any (Some (sub_of D2020 E (JArr ss))) j = true) in HV. unfold chk_any in HV. cbn [arr_of sub_of s_arr] in HV.
    apply existsb_exists in HV as (f & Hf & HV). apply in_map_iff in Hf as (x & <- & Hx). exists x. split; [exact Hx|exact HV].
Qed.

(** The value validates; the schema lists one subschema for each variant that can be serialized (the
    unit variants of an externally tagged enum that have no annotations sharing one, which comes
    first), under "oneOf" if all variants are tagged, and exactly one of them accepts the value. *)
Theorem C47_enum_values_validate_partial : forall St (items : nat -> item rval) text_ok tok c (s : settings St) st fuel i cs ts tg vs doc E v j,
  plain_settings tok c s -> d_data (it_decl (items i) cs ts) = DEnum tg vs -> supported items tok c (TAdt i cs ts) ->
  root_document items s st fuel (TAdt i cs ts) doc -> validator text_ok (s_path s) doc E ->
  value_json items text_ok true (TAdt i cs ts) v = Some j ->
  valid D2020 E doc j = true
  /\ (tg <> External \/ (exists w, In w vs /\ plain_unit w = false) ->
      exists ss, List.length ss = enum_branches c tg vs
        /\ if match tg with Untagged => true | _ => existsb v_untagged vs end
           then s_get "anyOf" doc = Some (JArr ss) /\ some_accepts E ss j
           else s_get "oneOf" doc = Some (JArr ss) /\ exactly_one E ss j).
Proof.
  intros St items text_ok tok c s st fuel i cs ts tg vs doc E v j HS HD HU HR HV HJ.
  assert (HVal : valid D2020 E doc j = true) by (eapply values_validate; eauto). split; [exact HVal|]. intros HC.
  assert (HL : lists (enum_keyword tg vs) (enum_branches c tg vs) doc).
  { eapply enum_document; eauto.
    - apply (su_decls _ _ _ _ HU (TAdt i cs ts)); [apply reach_refl|reflexivity].
    - intros ->. destruct HC as [HC|HC]; [congruence|exact HC]. }
  destruct (lists_valid _ _ _ _ _ HL HVal) as (ss & H1 & H2 & H3 & H4). exists ss. split; [exact H2|].
  unfold enum_keyword in *. destruct tg; try destruct (existsb v_untagged vs); auto.
Qed.
Print Assumptions C47_enum_values_validate_partial.

Example C47_example :
  let doc := doc_of ex_prog (TAdt 2 [] []) in
  let E := the_validator (doc_table doc) in
  plain_settings "$defs" Serialize ex_settings
  /\ (exists tg vs, d_data (it_decl (ex_prog 2) [] []) = DEnum tg vs /\ tg <> External /\ enum_branches Serialize tg vs = 3)
  /\ supported ex_prog "$defs" Serialize (TAdt 2 [] [])
  /\ root_document ex_prog ex_settings tt 20 (TAdt 2 [] []) doc
  /\ validator all_texts (s_path ex_settings) doc E
  /\ (exists j, value_json ex_prog all_texts true (TAdt 2 [] []) (RVariant 1 [RSeq []]) = None
      /\ value_json ex_prog all_texts true (TAdt 2 [] []) (RVariant 1 [RFloat (Some (3, -1)%Z)]) = Some j
      /\ j = JObj [("kind", JStr "Circle"); ("radius", JNum (NFlt 3 (-1)))]
      /\ valid D2020 E doc j = true)
  /\ valid D2020 E doc (JObj [("kind", JStr "Circle")]) = false.
Proof.
  cbv zeta. split; [apply ex_plain|]. split; [eexists _, _; split; [reflexivity|split; [discriminate|reflexivity]]|].
  split; [apply ex_supported; cbn; auto|]. split; [eexists; vm_compute; reflexivity|]. split; [apply table_validator; vm_compute; reflexivity|].
  split; [eexists; split; [vm_compute; reflexivity|split; [vm_compute; reflexivity|split; vm_compute; reflexivity]]|]. vm_compute; reflexivity.
Qed.

(** enum T { A(#[serde(skip_serializing)] u8) }: serde writes the variant as "A", the schema asks for an object. *)
Theorem C47_skipped_newtype_refuted :
  rejected (one_item (Decl false (DEnum External [Variant "A" "A" false false false
      (Newtype (Field "0" "0" (TInt U8) true false None false None false no_vattrs [])) []]) []))
    (TAdt 0 [] []) (RVariant 0 [RInt 1]) (JStr "A").
Proof. reject. Qed.
Print Assumptions C47_skipped_newtype_refuted.
(** #[serde(tag = "tag")] enum T { A(U) } with enum U { B(u8), C }: A(C) is {"tag": "A", "C": null}, the
    schema asks U's part to be the string "C". *)
Theorem C47_tagged_enum_refuted :
  rejected (two_items (Decl false (DEnum (Internal "tag") [Variant "A" "A" false false false (Newtype (fld "0" (TAdt 1 [] []))) []]) [])
                      (Decl false (DEnum External [Variant "B" "B" false false false (Newtype (fld "0" (TInt U8))) [];
                                                   Variant "C" "C" false false false Unit []]) []))
    (TAdt 0 [] []) (RVariant 0 [RVariant 1 []]) (JObj [("C", JNull); ("tag", JStr "A")]).
Proof. reject. Qed.
Print Assumptions C47_tagged_enum_refuted.
