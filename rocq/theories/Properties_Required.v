(** Property theorems C48: the "required" list of the schema of a struct, under each contract.

    What deserialization needs is specified in RequiredSerde.v ([complete]), what serialization writes
    in Serde.v ([value_json]). *)
From Coq Require Import String Ascii List ZArith Bool Lia.
From Verif Require Import ValidationAttrs Json JsonFacts Utf8 Encoding EncodingProofs SchemaApi Transform Validate ValidateFacts ValidateKw Pointer
  PointerProofs Private PrivateProps ShapeFacts PrivateFlatten Generate GenerateDoc SerValue Types TypesShape Serde SerdeFacts Derivation Properties_Root SoundBase SoundStruct SoundTypes
  TypeId Sound Required RequiredDerive RequiredSerde RequiredVariants Properties_Sound.
Import ListNotations.
Open Scope string_scope.
Open Scope list_scope.

(** [has_property], [requires]: RequiredVariants.v *)

(** [t] is a struct with named fields; those of its fields that are flattened hold structs with named
    fields again; nothing attached to these structs is a keyword that affects validation. *)
Record plain_structs (items : nat -> item rval) (c : contract) (t : rty) : Prop := {
  pss_struct : exists i cs ts def fs, t = TAdt i cs ts /\ d_data (it_decl (items i) cs ts) = DStruct def (Struct fs);
  pss_plain : forall i cs ts def fs, within_flat items c t (TAdt i cs ts) -> d_data (it_decl (items i) cs ts) = DStruct def (Struct fs) ->
    plain_struct items c (it_decl (items i) cs ts) fs }.

Lemma struct_document St (items : nat -> item rval) tok c (s : settings St) st fuel t doc :
  plain_settings tok c s -> root_document items s st fuel t doc -> plain_structs items c t ->
  grounded items c t /\ (forall k, has_property doc k <-> has_key items c t k) /\ (forall k, requires doc k <-> needs_key items c (schema_must c) t k).
Proof.
  intros HS [g' HR] [(i & cs & ts & def & fs & -> & HD) HP].
  destruct (root_derives (info items) (reach items (TAdt i cs ts)) fuel (TAdt i cs ts) s st doc g') as (gf & sch & H1 & H2 & H3 & _); auto.
  { apply reach_closed. } { apply reach_refl. } { apply (ps_transforms _ _ _ HS). }
  pose proof (ps_contract _ _ _ HS) as HC. subst c.
  unfold derives_f in H2. rewrite H1 in H2.
  destruct (derives_well items s _ _ _ (TAdt i cs ts) sch HP (reach_refl _ _) H2 (WithinSelf _ _ _) i cs ts def fs eq_refl HD) as (m & -> & HQ & HG).
  split; [exact HG|].
  assert (K : forall key, In key (kws ++ ctx) -> mget key (add_definitions (s_path s) (root_object (info items) (TAdt i cs ts) s (JObj m)) (g_defs gf)) = mget key m).
  { intros key Hk. rewrite (root_keeps_key items tok s _ HS) by exact Hk. reflexivity. }
  assert (K1 : In "properties" (kws ++ ctx) /\ In "required" (kws ++ ctx)) by (split; apply (existsb_In _ (kws ++ ctx)); vm_compute; reflexivity).
  destruct K1 as [K1 K2]. apply K in K1, K2. clear K. destruct (rq_shape _ _ _ _ _ HQ) as (_ & _ & S3 & S4). split; intros k.
  - split.
    + intros (m' & ps & HE & Hm & Hk). rewrite H3 in HE. injection HE as <-. rewrite K1 in Hm.
      assert (HX : mget k (props_of m) <> None) by (unfold props_of; now rewrite Hm).
      apply (rq_props _ _ _ _ _ HQ) in HX as (f & Hf & HT & Hk'). econstructor; eauto.
    + intros HK. inversion HK as [n0 cs0 ts0 df0 fs0 f k0 Y1 Y2 Y3 Y4]; subst. rewrite HD in Y1. injection Y1 as <- <-.
      assert (HX : mget k (props_of m) <> None) by (apply (rq_props _ _ _ _ _ HQ); eauto).
      unfold props_of in HX. destruct S3 as [S3|(ps & S3)]; rewrite S3 in HX; [cbn in HX; congruence|].
      eexists _, ps. split; [reflexivity|]. split; [now rewrite K1|exact HX].
  - split.
    + intros (m' & rs & HE & Hm & Hk). rewrite H3 in HE. injection HE as <-. rewrite K2 in Hm.
      assert (HX : In (JStr k) (required_of m)) by (unfold required_of; now rewrite Hm).
      apply (rq_needs _ _ _ _ _ HQ) in HX as (f & Hf & HT & Hk'). econstructor; eauto.
    + intros HK. inversion HK as [n0 cs0 ts0 df0 fs0 f k0 Y1 Y2 Y3 Y4]; subst. rewrite HD in Y1. injection Y1 as <- <-.
      assert (HX : In (JStr k) (required_of m)) by (apply (rq_needs _ _ _ _ _ HQ); eauto).
      unfold required_of in HX. destruct S4 as [S4|(rs & S4)]; rewrite S4 in HX; [destruct HX|].
      eexists _, rs. split; [reflexivity|]. split; [now rewrite K2|exact HX].
Qed.

Lemma requires_dec doc k : requires doc k \/ ~ requires doc k.
Proof.
  destruct doc as [| | | | |m]; try (right; intros (m & rs & HE & _); discriminate).
  destruct (mget "required" m) as [[| | | |rs|]|] eqn:ER; try (right; intros (m' & rs' & [= <-] & HM & _); congruence).
  destruct (existsb (json_eqb (JStr k)) rs) eqn:EX.
  - left. exists m, rs. split; [reflexivity|]. split; [exact ER|]. apply existsb_exists in EX as (x & Hx & HE). apply json_eqb_eq in HE. now subst.
  - right. intros (m' & rs' & [= <-] & HM & HI). rewrite ER in HM. injection HM as <-.
    rewrite (proj2 (existsb_exists _ _)) in EX; [discriminate|]. exists (JStr k). split; [exact HI|apply json_eqb_refl].
Qed.
Lemma mk_in {A} (l : list (string * A)) k : In k (map fst l) -> exists x, mget k (mk l) = Some x.
Proof.
  unfold mk, mappend.
  assert (G : forall m : list (string * A), (In k (map fst l) \/ mget k m <> None) ->
    mget k (fold_left (fun m (kv : string * A) => mset (fst kv) (snd kv) m) l m) <> None).
  { induction l as [|[k' x] l IH]; intros m H; [destruct H as [[]|H]; exact H|]. cbn [fold_left fst snd]. apply IH.
    rewrite mget_mset. destruct (String.eqb_spec k k') as [->|HN]; [right; discriminate|].
    destruct H as [[H|H]|H]; [cbn in H; congruence|now left|now right]. }
  intros H. specialize (G [] (or_introl H)). destruct (mget k _) eqn:E; [eauto|congruence].
Qed.

(** ** The properties, under either contract *)
Theorem C48_properties_partial : forall St (items : nat -> item rval) tok c (s : settings St) st fuel t doc k,
  plain_settings tok c s -> plain_structs items c t -> root_document items s st fuel t doc ->
  (has_property doc k <-> has_key items c t k) /\ (requires doc k -> has_property doc k).
Proof.
  intros St items tok c s st fuel t doc k HS HP HR. destruct (struct_document _ _ _ _ _ _ _ _ _ HS HR HP) as (HG & H1 & H2).
  split; [apply H1|]. rewrite H1, H2. now apply needs_has.
Qed.
Print Assumptions C48_properties_partial.

(** ** Deserialization *)
(** Not for a field marked [schemars(required)], nor for a Weak or a type that is converted from an Option: *)
Definition plain_presence (items : nat -> item rval) (t : rty) : Prop :=
  forall f, flat_field items Deserialize t f -> f_required f = false /\ (is_option (f_ty f) = true <-> missing_ok items (f_ty f)).

(** An object has the keys that the schema requires iff deserializing it finds no field missing. *)
Theorem C48_deserialize_required_partial : forall St (items : nat -> item rval) tok (s : settings St) st fuel t doc keys,
  plain_settings tok Deserialize s -> plain_structs items Deserialize t -> plain_presence items t ->
  root_document items s st fuel t doc ->
  (forall k, requires doc k -> In k keys) <-> complete items keys t.
Proof.
  intros St items tok s st fuel t doc keys HS HP HA HR. destruct (struct_document _ _ _ _ _ _ _ _ _ HS HR HP) as (HG & _ & H2).
  rewrite (complete_iff items t keys HG HA). split; intros H k HK; apply H, H2, HK.
Qed.
Print Assumptions C48_deserialize_required_partial.

(** ** Serialization *)
(** Not for a flattened field that is skipped by a predicate unless it is an option *)
Definition plain_skips (items : nat -> item rval) (t : rty) : Prop :=
  forall f, flat_field items Serialize t f -> f_flatten f = true -> f_skip_if f <> None -> is_option (f_ty f) = true /\ f_required f = false.
(** Every [skip_serializing_if] predicate holds for some value *)
Definition skips_possible (items : nat -> item rval) (t : rty) : Prop :=
  forall f p, flat_field items Serialize t f -> f_skip_if f = Some p -> exists x, p x = true.

(** A property is required iff every value is serialized to an object that has it. *)
Theorem C48_serialize_required_partial : forall St (items : nat -> item rval) text_ok tok (s : settings St) st fuel t doc k,
  plain_settings tok Serialize s -> plain_structs items Serialize t -> plain_skips items t -> skips_possible items t ->
  root_document items s st fuel t doc ->
  (exists v j, value_json items text_ok true t v = Some j) ->
  (requires doc k <-> has_property doc k /\ forall v j, value_json items text_ok true t v = Some j -> exists o x, j = JObj o /\ mget k o = Some x).
Proof.
  intros St items text_ok tok s st fuel t doc k HS HP HA HX HR (v0 & j0 & HV0).
  pose proof (C48_properties_partial _ _ _ _ _ _ _ _ _ k HS HP HR) as [_ HPr].
  destruct (struct_document _ _ _ _ _ _ _ _ _ HS HR HP) as (HG & _ & H2).
  assert (HSt := pss_struct _ _ _ HP). destruct HSt as (i & cs & ts & def & fs & -> & HD).
  assert (HA' : forall f, flat_field items Serialize (TAdt i cs ts) f -> ~ skipped_flat f).
  { intros f Hf (F1 & F2 & F3). destruct (HA f Hf F1 F2) as [G1 G2]. unfold loose in F3. now rewrite G1, G2 in F3. }
  assert (HO : forall v sv j, ser items text_ok true v (TAdt i cs ts) = Some sv -> to_json sv = Some j ->
    exists es js, flat_entries sv = Some es /\ j = JObj (mk js) /\ map fst js = map fst es).
  { intros v sv j HV HJ. destruct (struct_entries _ _ _ _ _ _ _ _ _ HD HV) as (l & es & -> & HE & ->).
    rewrite to_json_struct_value in HJ. destruct (omap _ es) as [js|] eqn:EO; [|discriminate]. injection HJ as <-.
    apply omap_printable in EO as [_ HF]. exists es, js. split; [apply flat_struct_value|]. now split. }
  rewrite H2. split.
  - intros HN. split; [apply HPr; now apply H2|]. intros v j HV. unfold value_json in HV.
    destruct (ser items text_ok true v (TAdt i cs ts)) as [sv|] eqn:ES; [|discriminate].
    destruct (HO v sv j ES HV) as (es & js & HE & -> & HF). destruct (needs_written items text_ok _ HG HA' k v sv HN ES) as (es' & HE' & HI).
    assert (es' = es) by congruence. subst es'. rewrite <- HF in HI. apply mk_in in HI as (x & Hx). now exists (mk js), x.
  - intros [HK HV]. unfold value_json in HV0. destruct (ser items text_ok true v0 (TAdt i cs ts)) as [sv0|] eqn:ES0; [|discriminate].
    destruct (requires_dec doc k) as [HN|HN]; [now apply H2|]. rewrite H2 in HN. exfalso.
    destruct (unneeded_omitted items text_ok _ HG HX k v0 sv0 ES0) as (l & sv & es & G1 & G2 & G3 & G4); [congruence|exact HN|].
    destruct (struct_entries _ _ _ _ _ _ _ _ _ HD G1) as (l' & es' & [= <-] & HE & ->). rewrite flat_struct_value in G2. injection G2 as ->.
    destruct (printable_omap es G3) as (js & HJ & HF).
    destruct (HV (RSeq l) (JObj (mk js))) as (o & x & [= <-] & Ho).
    { unfold value_json. rewrite G1, to_json_struct_value, HJ. reflexivity. }
    apply G4. rewrite <- HF. apply mk_keys. congruence.
Qed.
Print Assumptions C48_serialize_required_partial.

(** ** Examples *)
(** struct Conf { name: String, #[serde(default, rename(serialize = "lvl"))] level: u8, nick: Option<String>,
      #[serde(skip_serializing_if = "Vec::is_empty")] tags: Vec<String>, #[serde(skip_serializing)] secret: String,
      #[serde(flatten)] pos: Box<Pos>, #[serde(flatten)] span: Option<Span> }
    struct Pos { x: i32, #[serde(default)] y: i32 }   struct Span { start: u32, end: u32 } *)
Definition is_empty_seq (v : rval) : bool := match v with RSeq [] => true | _ => false end.
Definition conf_fields : list (field rval) :=
  [fld "name" TStr;
   Field "lvl" "level" (TInt U8) false false None true None false no_vattrs [];
   fld "nick" (TOption TStr);
   Field "tags" "tags" (TSeq TStr) false false (Some is_empty_seq) false None false no_vattrs [];
   Field "secret" "secret" TStr true false None false None false no_vattrs [];
   flat "pos" (TFwd (TAdt 1 [] []));
   flat "span" (TOption (TAdt 2 [] []))].
Definition pos_fields : list (field rval) :=
  [fld "x" (TInt I32); Field "y" "y" (TInt I32) false false None true None false no_vattrs []].
Definition span_fields : list (field rval) := [fld "start" (TInt U32); fld "end" (TInt U32)].
Definition conf_prog (n : nat) : item rval :=
  match n with
  | 0 => Item "app" "Conf" None false (fun _ _ => Decl false (DStruct false (Struct conf_fields)) [("description", JStr "Settings")])
  | 1 => Item "app" "Pos" None false (fun _ _ => Decl false (DStruct false (Struct pos_fields)) [])
  | _ => Item "app" "Span" None false (fun _ _ => Decl true (DStruct false (Struct span_fields)) [])
  end.
Definition conf : rty := TAdt 0 [] [].

Lemma conf_within c u : within_flat conf_prog c conf u -> In u [TAdt 0 [] []; TAdt 1 [] []; TAdt 2 [] []].
Proof.
  induction 1 as [|i cs ts def fs f HW IH HD Hf HT HF]; [now left|].
  destruct IH as [[= <- <- <-]|[[= <- <- <-]|[[= <- <- <-]|[]]]]; cbn in HD; injection HD as <- <-; cbn in Hf;
    repeat (destruct Hf as [<-|Hf]; [first [discriminate HF|cbn; tauto]|]); destruct Hf.
Qed.
Lemma conf_field c f : flat_field conf_prog c conf f -> In f (conf_fields ++ pos_fields ++ span_fields).
Proof.
  intros (i & cs & ts & def & fs & HW & HD & Hf & _). apply conf_within in HW.
  destruct HW as [[= <- <- <-]|[[= <- <- <-]|[[= <- <- <-]|[]]]]; cbn in HD; injection HD as <- <-; rewrite !in_app_iff; tauto.
Qed.
Lemma In_existsb k l : In k l -> existsb (String.eqb k) l = true.
Proof. intros H. apply existsb_exists. exists k. split; [exact H|apply String.eqb_refl]. Qed.
Lemma conf_plain c : plain_structs conf_prog c conf.
Proof.
  constructor; [exists 0, [], []; eexists _, _; split; reflexivity|].
  intros i cs ts def fs HW HD. apply conf_within in HW.
  assert (HA : plain_meta [("description", JStr "Settings")]).
  { intros k x [[= <- <-]|[]]. split; intros H; apply (In_existsb "description") in H; vm_compute in H; discriminate. }
  destruct HW as [[= <- <- <-]|[[= <- <- <-]|[[= <- <- <-]|[]]]]; cbn in HD; injection HD as <- <-;
    (constructor; [first [exact HA|intros k x []]|]); intros f Hf _ HF; cbn in Hf;
    repeat (destruct Hf as [<-|Hf]; [first [discriminate HF|eexists _, _, _, _, _; split; reflexivity]|]); destruct Hf.
Qed.
Ltac presence :=
  let H := fresh in intros H;
  match type of H with
  | is_option _ = true => first [discriminate H|constructor]
  | _ => cbn; first [reflexivity|cbn in H; do 3 try match goal with H : missing_ok _ _ |- _ => inversion H; clear H; subst end; discriminate]
  end.
Lemma conf_presence : plain_presence conf_prog conf.
Proof. intros f Hf. apply conf_field in Hf. cbn in Hf. 
  repeat (destruct Hf as [<-|Hf]; [split; [reflexivity|split; presence]|]). destruct Hf.
Qed.
Lemma conf_skips : plain_skips conf_prog conf /\ skips_possible conf_prog conf.
Proof.
  split.
  - intros f Hf HF HS. apply conf_field in Hf. cbn in Hf. repeat (destruct Hf as [<-|Hf]; [first [discriminate HF|now elim HS]|]). destruct Hf.
  - intros f p Hf HS. apply conf_field in Hf. cbn in Hf.
    repeat (destruct Hf as [<-|Hf]; [first [discriminate HS|cbn in HS; injection HS as <-; now exists (RSeq [])]|]). destruct Hf.
Qed.

Definition de_settings : settings unit := Settings "/$defs" (Some "https://json-schema.org/draft/2020-12/schema") [] false Deserialize.
Lemma de_plain : plain_settings "$defs" Deserialize de_settings.
Proof. destruct ex_plain as [_ H1 H2 H3 H4 H5]. constructor; auto. Qed.
Definition conf_de : json :=
  match root_schema_for (info conf_prog) (json_schema (info conf_prog) 20) conf (new_gen de_settings tt) with Some (d, _) => d | None => JNull end.
Definition conf_ser : json := doc_of conf_prog conf.
Definition list_of (doc : json) : option json := s_get "required" doc.

Example C48_deserialize_example :
  plain_settings "$defs" Deserialize de_settings /\ plain_structs conf_prog Deserialize conf /\ plain_presence conf_prog conf
  /\ root_document conf_prog de_settings tt 20 conf conf_de
  /\ list_of conf_de = Some (JArr [JStr "name"; JStr "tags"; JStr "secret"; JStr "x"])
  /\ complete conf_prog ["x"; "secret"; "name"; "tags"] conf /\ ~ complete conf_prog ["secret"; "name"; "tags"; "y"] conf.
Proof.
  assert (HD : root_document conf_prog de_settings tt 20 conf conf_de) by (eexists; vm_compute; reflexivity).
  assert (HL : list_of conf_de = Some (JArr [JStr "name"; JStr "tags"; JStr "secret"; JStr "x"])) by (vm_compute; reflexivity).
  assert (HQ : forall k, requires conf_de k <-> In k ["name"; "tags"; "secret"; "x"]).
  { intros k. split.
    - intros (m & rs & HE & HM & HI). rewrite HE in HL. unfold list_of, s_get in HL. rewrite HM in HL. injection HL as ->.
      cbn [In] in HI |- *. repeat (destruct HI as [[= <-]|HI]; [tauto|]). destruct HI.
    - intros HI. eexists _, _. split; [vm_compute; reflexivity|]. split; [vm_compute; reflexivity|].
      cbn [In] in HI |- *. repeat (destruct HI as [<-|HI]; [tauto|]). destruct HI. }
  split; [apply de_plain|]. split; [apply conf_plain|]. split; [apply conf_presence|]. split; [exact HD|]. split; [exact HL|].
  split; rewrite <- (C48_deserialize_required_partial unit conf_prog "$defs" de_settings tt 20 conf conf_de _ de_plain (conf_plain _) conf_presence HD).
  - intros k Hk. apply HQ in Hk. cbn [In] in Hk |- *. tauto.
  - intros H. specialize (H "x"). rewrite HQ in H. cbn [In] in H. intuition discriminate.
Qed.

Definition conf_value : rval :=
  RSeq [RStr "n"; RInt 3; RNone; RSeq []; RStr "s"; RSeq [RInt 1; RInt 2]; RSome (RSeq [RInt 4; RInt 5])].
Example C48_serialize_example :
  plain_settings "$defs" Serialize ex_settings /\ plain_structs conf_prog Serialize conf /\ plain_skips conf_prog conf
  /\ skips_possible conf_prog conf /\ root_document conf_prog ex_settings tt 20 conf conf_ser
  /\ list_of conf_ser = Some (JArr [JStr "name"; JStr "lvl"; JStr "nick"; JStr "x"; JStr "y"])
  /\ value_json conf_prog all_texts true conf conf_value = Some (JObj
       [("end", JNum (NInt 5)); ("lvl", JNum (NInt 3)); ("name", JStr "n"); ("nick", JNull); ("start", JNum (NInt 4)); ("x", JNum (NInt 1)); ("y", JNum (NInt 2))]).
Proof.
  split; [apply ex_plain|]. split; [apply conf_plain|]. split; [apply conf_skips|]. split; [apply conf_skips|].
  split; [eexists; vm_compute; reflexivity|]. split; vm_compute; reflexivity.
Qed.

(** ** Where the schema and serde differ *)
Definition requires_b (doc : json) (k : string) : bool :=
  match s_get "required" doc with Some (JArr rs) => existsb (json_eqb (JStr k)) rs | _ => false end.
Lemma requires_b_spec doc k : requires_b doc k = true -> requires doc k.
Proof.
  unfold requires_b. destruct doc as [| | | | |m]; try discriminate. cbn [s_get]. destruct (mget "required" m) as [[| | | |rs|]|] eqn:ER; try discriminate.
  intros H. apply existsb_exists in H as (x & Hx & HE). apply json_eqb_eq in HE. subst x. now exists m, rs.
Qed.

(** struct T { parent: Weak<u8> }: serde reads a missing Weak as a dead one, but the schema requires it. *)
Theorem C48_weak_refuted : exists items doc,
  root_document items de_settings tt 20 (TAdt 0 [] []) doc /\ plain_structs items Deserialize (TAdt 0 [] [])
  /\ complete items [] (TAdt 0 [] []) /\ requires doc "parent".
Proof.
  set (items := one_item (Decl false (DStruct false (Struct [fld "parent" (TWeak (TInt U8))])) [])). exists items.
  eexists. split; [eexists; vm_compute; reflexivity|]. split; [|split].
  - constructor; [exists 0, [], []; eexists _, _; split; reflexivity|]. intros i cs ts def fs HW HD.
    assert (HU : forall u, within_flat items Deserialize (TAdt 0 [] []) u -> u = TAdt 0 [] []).
    { induction 1 as [|i' cs' ts' def' fs' f HW' IH HD' Hf HT HF]; [reflexivity|]. injection IH as -> -> ->. cbn in HD'. injection HD' as <- <-.
      destruct Hf as [<-|[]]. discriminate HF. }
    apply HU in HW. injection HW as -> -> ->. cbn in HD. injection HD as <- <-. constructor; [intros k x []|].
    intros f [<-|[]] _ HF. discriminate HF.
  - econstructor; [reflexivity|]. intros f [<-|[]]. apply CMissing; [reflexivity|apply MWeak].
  - apply requires_b_spec. vm_compute. reflexivity.
Qed.
Print Assumptions C48_weak_refuted.

(** #[serde(from = "Option<u8>")] struct Conv; struct T { x: Conv }: serde reads a missing Conv as None, but
    the schema requires it. *)
Definition conv_items (n : nat) : item rval :=
  match n with
  | 0 => Item "app" "T" None false (fun _ _ => Decl false (DStruct false (Struct [fld "x" (TAdt 1 [] [])])) [])
  | _ => Item "app" "Conv" None false (fun _ _ => Decl false (DConv (Some (TOption (TInt U8))) None (DStruct false Unit)) [])
  end.
Theorem C48_converted_refuted : exists items doc,
  root_document items de_settings tt 20 (TAdt 0 [] []) doc /\ plain_structs items Deserialize (TAdt 0 [] [])
  /\ complete items [] (TAdt 0 [] []) /\ requires doc "x".
Proof.
  exists conv_items.
  eexists. split; [eexists; vm_compute; reflexivity|]. split; [|split].
  - constructor; [exists 0, [], []; eexists _, _; split; reflexivity|]. intros i cs ts def fs HW HD.
    assert (HU : forall u, within_flat conv_items Deserialize (TAdt 0 [] []) u -> u = TAdt 0 [] []).
    { induction 1 as [|i' cs' ts' def' fs' f HW' IH HD' Hf HT HF]; [reflexivity|]. injection IH as -> -> ->. cbn in HD'. injection HD' as <- <-.
      destruct Hf as [<-|[]]. discriminate HF. }
    apply HU in HW. injection HW as -> -> ->. cbn in HD. injection HD as <- <-. constructor; [intros k x []|].
    intros f [<-|[]] _ HF. discriminate HF.
  - econstructor; [reflexivity|]. intros f [<-|[]]. apply CMissing; [reflexivity|]. eapply MConv; [reflexivity|apply MOption].
  - apply requires_b_spec. vm_compute. reflexivity.
Qed.
Print Assumptions C48_converted_refuted.

(** struct T { #[serde(flatten, skip_serializing_if = "...")] span: Span }: required, but not written
    when the field is skipped. *)
Theorem C48_skipped_flatten_refuted : exists items doc v,
  root_document items ex_settings tt 20 (TAdt 0 [] []) doc /\ requires doc "start"
  /\ value_json items all_texts true (TAdt 0 [] []) v = Some (JObj []).
Proof.
  exists (one_item (Decl false (DStruct false (Struct [skipped_if_true (flat "span" (TAdt 1 [] []))])) [])).
  eexists. exists (RSeq [RSeq [RInt 2; RInt 3]]). split; [eexists; vm_compute; reflexivity|]. split; [|vm_compute; reflexivity].
  apply requires_b_spec. vm_compute. reflexivity.
Qed.
Print Assumptions C48_skipped_flatten_refuted.
