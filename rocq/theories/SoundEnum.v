(** Derived implementations of enums: given sound parts, a sound schema. *)
From Coq Require Import String Ascii List ZArith Bool Lia.
From Verif Require Import Json JsonFacts Utf8 SchemaApi Transform Validate ValidateFacts ValidateKw Pointer Private PrivateProps
  PrivateNull PrivateTag ShapeFacts PrivateFlatten PrivateForFlatten PrepareEnum Generate SerValue SerValueProofs Types TypesShape
  Serde SerdeFacts Derivation ValidationAttrs ValidationField Properties_Types SoundBase SoundStruct SoundFlat SoundTypes SoundStd SoundAdt.
Import ListNotations.
Open Scope string_scope.
Open Scope list_scope.

Section EnumSound.
Context {St : Type}.
Variable items : nat -> item rval.
Variable text_ok : checks.
Notation ser_fields := (Serde.ser_fields text_ok).
Notation ser_elements := (Serde.ser_elements text_ok).
Notation ser_one := (Serde.ser_one text_ok).
Notation ser_field := (Serde.ser_field text_ok).
Notation ser_struct := (Serde.ser_struct text_ok).
Notation ser_variant := (Serde.ser_variant text_ok).
Notation ser_untagged := (Serde.ser_untagged text_ok).
Variable E : env.
Hypothesis HFm : formats text_ok E.
Hypothesis HDp : decimal_patterns E.
Variable tok : string.
Hypothesis tok_fresh : ~ In tok used.
Notation ok_ := (valid D2020 E).
Notation ser_ := (ser items text_ok true).
Notation safe := (safe E tok).
Notation wf_meta := (wf_meta tok).
Notation wf_fields := (wf_fields items tok).
Notation wf_style := (wf_style items tok).
Notation wf_variant := (wf_variant items tok).
Notation wf_enum := (wf_enum items tok).
Notation wf_decl := (wf_decl items tok).
Notation wf_data := (wf_data items tok).
Notation st := (fun n fs => st items text_ok E tok (own_names fs) n fs).
Notation fits := (fits E).
Notation parts := (parts items text_ok).
Notation fields_json := (fun fs => fields_json items text_ok (own_names fs) fs).
Notation style_json := (style_json items text_ok).
Notation style_ok := (style_ok items text_ok E tok).
Variable S : settings St.
Notation ct := (s_contract S).
Variable seen : map_t -> Prop.
Notation sound := (sound items text_ok E).
Notation A := (A items text_ok E tok).
Notation P := (P items text_ok E tok).
Notation post := (post (St := St) S seen).
Notation prog := (prog rty St).
Notation post_ n := (post (A n) (P n)).
Notation smaller n l := (forall x, In x l -> rsize x < n).

(** ** Objects with a tag *)
(** The JSON of a value that names its variant *)
Definition carries (tg : tagging) (name : string) (j : json) : Prop :=
  match tg with
  | External => j = JStr name \/ exists c, j = JObj [(name, c)]
  | Internal tag | Adjacent tag _ => exists o, j = JObj o /\ mget tag o = Some (JStr name)
  | Untagged => False
  end.

Lemma tag_required m ps l tag name v :
  mget "type" m = Some (JStr "object") -> mget "properties" m = Some (JObj ps) -> mget tag ps = Some (tag_schema name) ->
  mget "required" m = Some (JArr l) -> In (JStr tag) l -> ok_ (JObj m) v = true ->
  exists o, v = JObj o /\ mget tag o = Some (JStr name).
Proof.
  intros HT HP HTag HR HIn HV.
  pose proof (kw_present E _ _ _ _ HV HT) as H1. unfold kw in H1. cbn [String.eqb Ascii.eqb Bool.eqb] in H1. rewrite chk_type_str in H1.
  destruct (type_object _ H1) as (o & ->). exists o. split; [reflexivity|].
  pose proof (kw_present E _ _ _ _ HV HR) as H2. change (required_ok l (JObj o) = true) in H2. cbn [required_ok] in H2.
  rewrite forallb_forall in H2. specialize (H2 _ HIn). cbn in H2. unfold mhas in H2.
  destruct (mget tag o) as [x|] eqn:EX; [|discriminate].
  pose proof (kw_present E _ _ _ _ HV HP) as H3. unfold kw in H3. cbn [String.eqb Ascii.eqb Bool.eqb existsb assertion_names orb] in H3.
  rewrite chk_props_ok in H3. cbn [props_ok] in H3. rewrite forallb_forall in H3. apply mget_In in EX. specialize (H3 _ EX).
  cbn [fst snd] in H3. rewrite HTag, tag_schema_sem in H3. apply jeq_str in H3. now subst.
Qed.

(** ** Externally tagged *)
Lemma external_rejects name c name' j : name' <> name -> carries External name' j ->
  ok_ (new_externally_tagged_enum_variant name c) j = false.
Proof.
  intros HN [->|(x & ->)]; destruct (external_shape name c) as (m & -> & HS & HA & HP & HR & HT); apply Bool.not_true_iff_false; intros HV.
  - pose proof (kw_present E _ _ _ _ HV HT) as H. unfold kw in H. cbn [String.eqb Ascii.eqb Bool.eqb] in H. now rewrite chk_type_str in H.
  - rewrite valid_shape in HV by exact HS. rewrite HR in HV. apply andb_prop in HV as [HV _]. apply andb_prop in HV as [_ HV].
    cbn in HV. unfold mhas in HV. cbn [mget] in HV. destruct (String.eqb_spec name name'); [congruence|discriminate].
Qed.

(** ** Adjacently tagged *)
Lemma adjacent_shape deny tag content name sub : exists m, adjacent_schema deny tag content name sub = JObj m /\ object_shape m
  /\ (mget "additionalProperties" m = None \/ mget "additionalProperties" m = Some (JBool false))
  /\ (let ps := (tag, tag_schema name) :: match sub with Some s => [(content, s)] | None => [] end in
      mget "properties" m = Some (JObj (mk ps)) /\ mget "required" m = Some (JArr (map (fun p => JStr (fst p)) ps)))
  /\ mget "type" m = Some (JStr "object") /\ safe (JObj m).
Proof.
  eexists. split; [reflexivity|]. split; [|split; [|split; [|split]]].
  - split; [|split; [|split]].
    + intros k Hk HN. apply mk_keys in HN. destruct deny; cbn in HN; repeat (destruct HN as [<-|HN]; [in_names|]); destruct HN.
    + right. destruct deny; reflexivity.
    + right. destruct deny; eexists; reflexivity.
    + right. destruct deny; eexists; reflexivity.
  - destruct deny; [right|left]; reflexivity.
  - split; destruct deny, sub; reflexivity.
  - destruct deny; reflexivity.
  - destruct deny; apply safe_obj; try (exact (fm_null _ _ HFm)); try exact tok_fresh; reflexivity.
Qed.

Lemma mget_mk_first k (x : json) es : ~ In k (map fst es) -> NoDup (map fst es) -> mget k (mk ((k, x) :: es)) = Some x.
Proof.
  intros H ND. rewrite mget_mk_NoDup by (constructor; auto). cbn. now rewrite String.eqb_refl.
Qed.

Lemma adjacent_accepts deny tag content name c j : tag <> content -> ok_ c j = true ->
  ok_ (adjacent_schema deny tag content name (Some c)) (JObj (mk [(tag, JStr name); (content, j)])) = true.
Proof.
  intros HN H. destruct (adjacent_shape deny tag content name (Some c)) as (m & -> & HS & HA & [HP HR] & _).
  apply fits_valid; auto. unfold props_of, required_of. rewrite HP, HR. apply fits_pairs.
  - constructor; [|repeat constructor; intros []]. intros [H'|[]]. now apply HN.
  - constructor; [|constructor; [|constructor]]; split; auto. cbn [snd]. rewrite tag_schema_sem. apply jeq_str. reflexivity.
Qed.

Lemma adjacent_unit deny tag content name :
  ok_ (adjacent_schema deny tag content name None) (JObj (mk [(tag, JStr name)])) = true.
Proof.
  destruct (adjacent_shape deny tag content name None) as (m & -> & HS & HA & [HP HR] & _).
  apply fits_valid; auto. unfold props_of, required_of. rewrite HP, HR. apply fits_pairs.
  - repeat constructor; intros [].
  - constructor; [|constructor]; split; auto. cbn [snd]. rewrite tag_schema_sem. apply jeq_str. reflexivity.
Qed.

Lemma adjacent_rejects deny tag content name sub name' j : tag <> content -> name' <> name -> carries (Adjacent tag content) name' j ->
  ok_ (adjacent_schema deny tag content name sub) j = false.
Proof.
  intros HT HN (o & -> & HO). destruct (adjacent_shape deny tag content name sub) as (m & -> & HS & HA & [HP HR] & HTy & _).
  apply Bool.not_true_iff_false. intros HV.
  assert (HM : mget tag (mk ((tag, tag_schema name) :: match sub with Some s => [(content, s)] | None => [] end)) = Some (tag_schema name)).
  { apply mget_mk_first; destruct sub; cbn; try (intros []; congruence); repeat constructor; intros []. }
  destruct (tag_required m _ _ tag name (JObj o) HTy HP HM HR (or_introl eq_refl) HV) as (o' & [= <-] & HO'). congruence.
Qed.

(** ** Internally tagged *)
Lemma tagged_shape tag name deny m : usual m -> (forall k, In k kws -> mget k m <> None -> In k object_keywords) ->
  (mget "additionalProperties" m = None \/ mget "additionalProperties" m = Some (JBool false)) ->
  let T := PrivateTag.tagged tag name deny m in
  object_shape T /\ (mget "additionalProperties" T = None \/ mget "additionalProperties" T = Some (JBool false))
  /\ props_of T = mset tag (tag_schema name) (props_of m) /\ required_of T = JStr tag :: required_of m.
Proof.
  intros HU HK HA T. pose proof (fun k => tagged_get tag name deny m k HU) as G. fold T in G. repeat split.
  - intros k Hk HN. rewrite G in HN.
    destruct (String.eqb_spec k "type") as [->|]; [in_names|]. destruct (String.eqb_spec k "properties") as [->|]; [in_names|].
    destruct (String.eqb_spec k "required") as [->|]; [in_names|].
    destruct (String.eqb_spec k "additionalProperties") as [->|]; [in_names|]. rewrite andb_false_r in HN. auto.
  - right. exact (G "type").
  - right. eexists. exact (G "properties").
  - right. eexists. exact (G "required").
  - rewrite G. cbn [String.eqb Ascii.eqb Bool.eqb]. rewrite andb_true_r. destruct (closed_unit deny m); auto.
  - unfold props_of at 1. now rewrite G.
  - unfold required_of at 1. now rewrite G.
Qed.

Lemma tagged_accepts tag name deny m es : usual m -> (forall k, In k kws -> mget k m <> None -> In k object_keywords) ->
  (mget "additionalProperties" m = None \/ mget "additionalProperties" m = Some (JBool false)) ->
  mget tag (props_of m) = None -> sorted_keys (map fst (props_of m)) = true -> fits (props_of m) (required_of m) es ->
  ok_ (apply_internal_tag tag name deny (JObj m)) (JObj (mk ((tag, JStr name) :: es))) = true.
Proof.
  intros HU HK HA HT HSo HF. destruct (tagged_shape tag name deny m HU HK HA) as (T1 & T2 & T3 & T4). rewrite tagged_obj.
  apply fits_valid; auto. rewrite T3, T4.
  assert (F : fits (mappend [(tag, tag_schema name)] (props_of m)) ([JStr tag] ++ required_of m) ([(tag, JStr name)] ++ es)).
  { apply fits_app; auto.
    - apply (fits_pairs E [(tag, tag_schema name)] [(tag, JStr name)]); [repeat constructor; intros []|].
      repeat constructor. cbn [snd]. rewrite tag_schema_sem. apply jeq_str. reflexivity.
    - cbn. intros k. destruct (String.eqb_spec k tag) as [->|]; [congruence|auto]. }
  revert F. apply fits_lookup; [|auto]. intros k. rewrite mget_mappend_NoDup by (now apply sorted_NoDup). rewrite mget_mset. cbn [mget].
  destruct (String.eqb_spec k tag) as [->|]; [now rewrite HT|]. now destruct (mget k (props_of m)).
Qed.

Lemma tagged_rejects tag name deny m name' j : usual m -> name' <> name -> carries (Internal tag) name' j ->
  ok_ (apply_internal_tag tag name deny (JObj m)) j = false.
Proof.
  intros HU HN (o & -> & HO). rewrite tagged_obj. pose proof (fun k => tagged_get tag name deny m k HU) as G.
  apply Bool.not_true_iff_false. intros HV.
  destruct (tag_required _ _ (JStr tag :: required_of m) tag name (JObj o) (G "type") (G "properties")) as (o' & [= <-] & HO'); auto.
  - rewrite mget_mset. now rewrite String.eqb_refl.
  - exact (G "required").
  - now left.
  - congruence.
Qed.

Lemma tagged_safe tag name deny m : usual m -> (forall k, In k kws -> mget k m <> None -> In k object_keywords) ->
  mget tok m = None -> safe (apply_internal_tag tag name deny (JObj m)).
Proof.
  intros HU HK HT. rewrite tagged_obj. pose proof (fun k => tagged_get tag name deny m k HU) as G.
  set (T := PrivateTag.tagged tag name deny m) in *. clearbody T.
  assert (HN : forall k, In k kws -> ~ In k object_keywords -> mget k T = None).
  { intros k Hk Ho. rewrite G. cbn in Ho. destruct (String.eqb_spec k "type") as [->|]; [tauto|].
    destruct (String.eqb_spec k "properties") as [->|]; [tauto|]. destruct (String.eqb_spec k "required") as [->|]; [tauto|].
    destruct (String.eqb_spec k "additionalProperties") as [->|]; [tauto|]. rewrite andb_false_r.
    destruct (mget k m) eqn:EM; [|reflexivity]. exfalso. assert (HI : In k object_keywords) by (apply HK; congruence). cbn in HI. tauto. }
  apply safe_plain; [apply HFm| | | | |].
  - apply imm_false. intros k Hk. apply HN; [now apply imm_kws|]. intros HO. cbn in Hk, HO.
    repeat (destruct Hk as [<-|Hk]; [repeat (destruct HO as [HO|HO]; [discriminate|]); exact HO|]). exact Hk.
  - apply HN; [in_names|]. intros HO. cbn in HO. repeat (destruct HO as [HO|HO]; [discriminate|]); exact HO.
  - apply HN; [in_names|]. intros HO. cbn in HO. repeat (destruct HO as [HO|HO]; [discriminate|]); exact HO.
  - unfold has_type, s_get. now rewrite G.
  - rewrite G. assert (NT : forall k, In k used -> String.eqb tok k = false).
    { intros k Hk. apply String.eqb_neq. intros ->. contradiction. }
    rewrite !NT by in_names. rewrite andb_false_r. exact HT.
Qed.

(** A reference with annotations *)
Record ref_like (r : string) (m : map_t) : Prop := {
  rl_ref : mget "$ref" m = Some (JStr r);
  rl_other : forall k, mget k m <> None -> k = "$ref" \/ annotation k;
  rl_tok : mget tok m = None }.

Lemma ref_like_insert r m k x : annotation k -> k <> tok -> ref_like r m -> ref_like r (mset k x m).
Proof.
  intros HA HT [H1 H2 H3]. split.
  - rewrite mget_ann; auto. in_names.
  - intros c. rewrite mget_mset. destruct (String.eqb_spec c k) as [->|]; auto.
  - rewrite mget_mset. destruct (String.eqb_spec tok k); [congruence|exact H3].
Qed.

Lemma ref_like_all r l : forall m, wf_meta l -> ref_like r m -> exists m', insert_all l (JObj m) = JObj m' /\ ref_like r m'.
Proof.
  induction l as [|[k x] l IH]; intros m W H; [now exists m|]. rewrite insert_all_cons. unfold insert. cbn [fst snd ensure_obj ensure_object].
  destruct (W k x (or_introl eq_refl)). apply IH; [intros k' x' Hin; apply (W k' x'); now right|]. now apply ref_like_insert.
Qed.

Lemma ref_like_mutators r (f : field rval) : f_valid f = no_vattrs -> wf_meta (f_meta f) -> exists m, field_mutators f (new_ref r) = JObj m /\ ref_like r m.
Proof.
  intros HC W. assert (H0 : ref_like r [("$ref", JStr r)]).
  { split; [reflexivity| |].
    - intros k. cbn. destruct (String.eqb_spec k "$ref") as [->|]; [auto|congruence].
    - cbn. destruct (String.eqb_spec tok "$ref") as [HE|]; [|reflexivity]. exfalso. apply tok_fresh. rewrite HE. in_names. }
  destruct default_ann as (_ & A2 & A3). destruct (tok_default tok tok_fresh) as (_ & T2 & T3).
  destruct (ref_like_all r (f_meta f) _ W H0) as (m & HE & H). unfold field_mutators. rewrite HC.
  change (insert_all (f_meta f) (new_ref r)) with (insert_all (f_meta f) (JObj [("$ref", JStr r)])). rewrite HE, no_mutators by reflexivity.
  destruct (f_skip_de f), (f_skip_ser f); unfold insert; cbn [ensure_obj ensure_object]; eexists; (split; [reflexivity|]);
    repeat (apply ref_like_insert; [assumption|assumption|]); exact H.
Qed.

Lemma ref_usual r m : ref_like r m -> usual m.
Proof.
  intros H. assert (HN : forall k, In k kws -> k <> "$ref" -> mget k m = None).
  { intros k Hk HR. destruct (mget k m) eqn:EM; [|reflexivity]. exfalso. destruct (rl_other _ _ H k) as [HE|[HA _]]; congruence || contradiction. }
  split; left; apply HN; try discriminate; in_names.
Qed.

Lemma ref_tagged_accepts r m tag name deny o : ref_like r m ->
  sorted_keys (map fst o) = true -> ok_ (new_ref r) (JObj (mset tag (JStr name) o)) = true ->
  ok_ (apply_internal_tag tag name deny (JObj m)) (JObj (mset tag (JStr name) o)) = true.
Proof.
  intros H HSo HV. pose proof (ref_usual _ _ H) as HU. rewrite tagged_obj. pose proof (fun k => tagged_get tag name deny m k HU) as G.
  set (T := PrivateTag.tagged tag name deny m) in *. clearbody T.
  assert (HN : forall k, In k kws -> k <> "$ref" -> mget k m = None).
  { intros k Hk HR. destruct (mget k m) eqn:EM; [|reflexivity]. exfalso. destruct (rl_other _ _ H k) as [HE|[HA _]]; congruence || contradiction. }
  assert (HC : closed_unit deny m = false).
  { unfold closed_unit. rewrite (HN "type") by (try discriminate; in_names). now rewrite andb_false_r. }
  assert (HP : props_of m = []) by (unfold props_of; now rewrite (HN "properties") by (try discriminate; in_names)).
  assert (HR : required_of m = []) by (unfold required_of; now rewrite (HN "required") by (try discriminate; in_names)).
  apply valid_kw. intros k x Hx. destruct (in_dec string_dec k kws) as [Hk|Hk]; [|now apply kw_other].
  rewrite G, HC, HP, HR in Hx. cbn [andb] in Hx.
  destruct (String.eqb_spec k "type") as [->|]; [injection Hx as <-; reflexivity|].
  destruct (String.eqb_spec k "properties") as [->|].
  { injection Hx as <-. unfold kw. cbn [String.eqb Ascii.eqb Bool.eqb existsb assertion_names orb]. rewrite chk_props_ok.
    cbn [props_ok mset]. apply forallb_forall. intros [c y] Hin. cbn [fst snd mget]. destruct (String.eqb_spec c tag) as [->|]; [|reflexivity].
    rewrite tag_schema_sem. apply jeq_str.
    apply (NoDup_mget _ _ _ (sorted_NoDup _ (sorted_mset _ _ _ HSo))) in Hin. rewrite mget_mset, String.eqb_refl in Hin. congruence. }
  destruct (String.eqb_spec k "required") as [->|].
  { injection Hx as <-. change (required_ok [JStr tag] (JObj (mset tag (JStr name) o)) = true). cbn. unfold mhas.
    rewrite mget_mset, String.eqb_refl. reflexivity. }
  destruct (String.eqb_spec k "$ref") as [->|]; [|rewrite HN in Hx by assumption; discriminate].
  rewrite (rl_ref _ _ H) in Hx. injection Hx as <-. exact (kw_present E [("$ref", JStr r)] "$ref" (JStr r) _ HV eq_refl).
Qed.

Lemma ref_tagged_safe r m tag name deny : ref_like r m -> safe (apply_internal_tag tag name deny (JObj m)).
Proof.
  intros H. pose proof (ref_usual _ _ H) as HU. rewrite tagged_obj. pose proof (fun k => tagged_get tag name deny m k HU) as G.
  set (T := PrivateTag.tagged tag name deny m) in *. clearbody T.
  assert (HR : mget "$ref" T = Some (JStr r)).
  { rewrite G. cbn [String.eqb Ascii.eqb Bool.eqb]. rewrite andb_false_r. apply (rl_ref _ _ H). }
  split; try discriminate; auto.
  - unfold has_type, s_get. rewrite G. discriminate.
  - intros a [= HE]. rewrite HE in HR. discriminate.
  - intros m' [= <-] HI. rewrite (proj2 (imm_false T) HI "$ref") in HR by in_names. discriminate.
  - cbn [s_get]. rewrite G. assert (NT : forall k, In k used -> String.eqb tok k = false).
    { intros k Hk. apply String.eqb_neq. intros ->. contradiction. }
    rewrite !NT by in_names. rewrite andb_false_r. apply (rl_tok _ _ H).
Qed.

(** ** The JSON of variants *)
Definition vjson (tg : tagging) (w : variant rval) (l : list rval) : option json :=
  match ser_variant true tg w (parts l) with Some sv => json_of sv | None => None end.

Definition newtype_ok (w : variant rval) : Prop := forall f, v_style w = Newtype f -> f_skip_ser f = false.

Lemma vjson_untagged tg w l j : v_untagged w = true \/ tg = Untagged -> newtype_ok w -> vjson tg w l = Some j -> style_json (v_style w) l = Some j.
Proof.
  intros HU HN. unfold vjson, Serde.ser_variant. destruct (v_skip_ser w); [discriminate|].
  assert (HE : (if v_untagged w then ser_untagged true (v_style w) (parts l) else ser_untagged true (v_style w) (parts l)) = ser_untagged true (v_style w) (parts l))
    by now destruct (v_untagged w).
  intros H. assert (H' : match ser_untagged true (v_style w) (parts l) with Some sv => json_of sv | None => None end = Some j).
  { destruct HU as [HU|HU]; rewrite HU in H; [exact H|]. now destruct (v_untagged w). }
  destruct (ser_untagged true (v_style w) (parts l)) as [sv|] eqn:ES; [|discriminate].
  now rewrite <- (untagged_style_json items text_ok (v_style w) l sv HN ES).
Qed.

Lemma vjson_external w l j : v_untagged w = false -> newtype_ok w -> vjson External w l = Some j ->
  if v_is_unit w then j = JStr (v_ser w) else exists c, style_json (v_style w) l = Some c /\ j = JObj [(v_ser w, c)].
Proof.
  intros HU HN. unfold vjson, Serde.ser_variant. destruct (v_skip_ser w); [discriminate|]. rewrite HU. unfold v_is_unit, newtype_ok in *.
  destruct (v_style w) as [|f|fs|fs]; cbn [effective_style].
  - now intros [= <-].
  - rewrite (HN f eq_refl). cbn [SoundAdt.style_json]. destruct (ser_one true f (parts l)) as [x|]; [|discriminate]. cbn.
    destruct (json_of x) as [c|]; [|discriminate]. intros [= <-]. eauto.
  - cbn [SoundAdt.style_json]. unfold elements_json. destruct (ser_elements true fs (parts l)) as [vs|]; [|discriminate]. cbn.
    destruct (omap json_of vs) as [js|]; [|discriminate]. intros [= <-]. exists (JArr js). auto.
  - cbn [SoundAdt.style_json]. unfold SoundStruct.fields_json. destruct (ser_fields true (own_names fs) fs (parts l)) as [fe|]; [|discriminate].
    cbn [option_map]. assert (HE : json_of (if existsb f_flatten fs then VNewtypeVariant (v_ser w) (struct_value "" fs fe) else VStructVariant (v_ser w) fe)
      = option_map (fun c => JObj [(v_ser w, c)]) (option_map (fun es => JObj (mk es)) (omap entry_json fe))).
    { destruct (existsb f_flatten fs) eqn:EF.
      - cbn [json_of]. now rewrite json_struct_value.
      - cbn [json_of]. unfold entry_json. now destruct (omap _ fe). }
    rewrite HE. destruct (omap entry_json fe) as [es|]; [|discriminate]. intros [= <-]. cbn. eauto.
Qed.

Lemma vjson_adjacent tag content w l j : v_untagged w = false -> newtype_ok w -> vjson (Adjacent tag content) w l = Some j ->
  if v_is_unit w then j = JObj (mk [(tag, JStr (v_ser w))])
  else exists c, style_json (v_style w) l = Some c /\ j = JObj (mk [(tag, JStr (v_ser w)); (content, c)]).
Proof.
  intros HU HN. unfold vjson, Serde.ser_variant. destruct (v_skip_ser w); [discriminate|]. rewrite HU. unfold v_is_unit, newtype_ok in *.
  assert (HC : match ser_untagged true (v_style w) (parts l) with
     | Some x => json_of (VStruct "" [(tag, VUnitVariant (v_ser w)); (content, x)]) | None => None end = Some j ->
     exists c, style_json (v_style w) l = Some c /\ j = JObj (mk [(tag, JStr (v_ser w)); (content, c)])).
  { destruct (ser_untagged true (v_style w) (parts l)) as [x|] eqn:EX; [|discriminate].
    pose proof (untagged_style_json items text_ok (v_style w) l x HN EX) as HJ. rewrite json_struct. cbn. rewrite HJ.
    destruct (style_json (v_style w) l) as [c|]; [|discriminate]. intros [= <-]. eauto. }
  destruct (v_style w) as [|f|fs|fs]; cbn [effective_style].
  - now intros [= <-].
  - rewrite (HN f eq_refl) in *. intros H. apply HC. now destruct (ser_untagged true (Newtype f) (parts l)).
  - intros H. apply HC. now destruct (ser_untagged true (Tuple fs) (parts l)).
  - intros H. apply HC. now destruct (ser_untagged true (Struct fs) (parts l)).
Qed.

Lemma vjson_internal tag w l j : v_untagged w = false -> newtype_ok w -> internal_ok items tag (v_style w) -> vjson (Internal tag) w l = Some j ->
  match v_style w with
  | Unit => j = JObj (mk [(tag, JStr (v_ser w))])
  | Newtype f => exists i cs ts def fs x l' sv es, unwrap (f_ty f) = TAdt i cs ts /\ d_data (it_decl (items i) cs ts) = DStruct def (Struct fs)
      /\ ~ declares items (TAdt i cs ts) tag
      /\ l = [x] /\ x = RSeq l' /\ ser_ x (f_ty f) = Some sv /\ json_of sv = Some (JObj (mk es))
      /\ fields_json fs l' = Some es /\ j = JObj (mk ((tag, JStr (v_ser w)) :: es))
  | Tuple _ => False
  | Struct fs => exists es, fields_json fs l = Some es /\ j = JObj (mk ((tag, JStr (v_ser w)) :: es))
  end.
Proof.
  intros HU HN HI. unfold vjson, Serde.ser_variant. destruct (v_skip_ser w); [discriminate|]. rewrite HU. unfold newtype_ok in *.
  destruct (v_style w) as [|f|fs|fs]; cbn [effective_style].
  - now intros [= <-].
  - rewrite (HN f eq_refl). destruct HI as (_ & i & cs & ts & def & fs & H1 & H2 & HCl & H3).
    unfold Serde.ser_one. destruct l as [|x [|]]; try discriminate. cbn [SoundStruct.parts map].
    destruct (ser_field true f (x, ser_ x)) as [sv|] eqn:ES; [|discriminate]. apply field_inv in ES as (_ & ES & _). cbn [snd] in ES.
    (* the value behind forwarding types *)
    assert (HX : forall t sv', ser_ x t = Some sv' -> unwrap t = TAdt i cs ts -> Serde.tagged tag (v_ser w) sv' <> None ->
       exists l' fe, x = RSeq l' /\ ser_fields true (own_names fs) fs (parts l') = Some fe /\ sv' = struct_value (it_name (items i)) fs fe).
    { induction t; intros sv' HS HW HT; try discriminate HW.
      - rewrite ser_fwd in HS. exact (IHt sv' HS HW HT).
      - rewrite ser_weak in HS. exfalso. apply HT. destruct x; try discriminate; destruct (ser_ _ t); try discriminate; injection HS as <-; reflexivity.
      - cbn [unwrap] in HW. injection HW as -> -> ->. destruct (ser_adt _ _ _ _ _ _ _ _ _ HS H2) as (l' & -> & HS').
        cbn [Serde.ser_struct] in HS'. fold (parts l') in HS'. destruct (ser_fields true (own_names fs) fs (parts l')) as [fe|] eqn:EF; [|discriminate].
        injection HS' as <-. eauto. }
    destruct (Serde.tagged tag (v_ser w) sv) as [sv'|] eqn:ET; [|discriminate].
    destruct (HX (f_ty f) sv ES H1) as (l' & fe & -> & HF & ->); [congruence|]. intros HJ.
    assert (ET' : sv' = VStruct "" ((tag, VStr (v_ser w)) :: fe)).
    { pose proof (flat_struct_value (it_name (items i)) fs fe) as HFl. unfold struct_value in *. destruct (existsb f_flatten fs); cbn in ET.
      - cbn in HFl. rewrite HFl in ET. now injection ET as <-.
      - now injection ET as <-. }
    subst sv'. rewrite json_struct in HJ. cbn [omap entry_json] in HJ. cbn in HJ. fold (omap entry_json) in HJ.
    destruct (omap entry_json fe) as [es|] eqn:EJ; [|discriminate]. injection HJ as <-.
    exists i, cs, ts, def, fs, (RSeq l'), l', (struct_value (it_name (items i)) fs fe), es.
    repeat split; auto.
    + rewrite json_struct_value, EJ. reflexivity.
    + unfold SoundStruct.fields_json. now rewrite HF.
  - destruct HI.
  - unfold SoundStruct.fields_json. destruct (ser_fields true (own_names fs) fs (parts l)) as [fe|]; [|discriminate]. cbn [option_map].
    rewrite json_struct. cbn. fold (omap entry_json). destruct (omap entry_json fe) as [es|]; [|discriminate]. intros [= <-]. eauto.
Qed.

(** ** Variants of flattened enums *)
(** The entries a flattened variant writes *)
Definition flat_json (tg : tagging) (w : variant rval) (l : list rval) : option (list (string * json)) :=
  match ser_variant true tg w (parts l) with
  | Some sv => match flat_entries sv with Some fe => omap entry_json fe | None => None end
  | None => None
  end.

Lemma flat_external w l es : v_untagged w = false -> newtype_ok w -> flat_json External w l = Some es ->
  if v_is_unit w then es = [(v_ser w, JNull)] else exists c, style_json (v_style w) l = Some c /\ es = [(v_ser w, c)].
Proof.
  intros HU HN. unfold flat_json, Serde.ser_variant. destruct (v_skip_ser w); [discriminate|]. rewrite HU. unfold v_is_unit, newtype_ok in *.
  destruct (v_style w) as [|f|fs|fs]; cbn [effective_style].
  - now intros [= <-].
  - rewrite (HN f eq_refl). cbn [SoundAdt.style_json]. destruct (ser_one true f (parts l)) as [x|]; [|discriminate]. cbn.
    destruct (json_of x) as [c|]; [|discriminate]. intros [= <-]. eauto.
  - cbn [SoundAdt.style_json]. unfold elements_json. destruct (ser_elements true fs (parts l)) as [vs|]; [|discriminate]. cbn.
    destruct (omap json_of vs) as [js|]; [|discriminate]. intros [= <-]. exists (JArr js). auto.
  - cbn [SoundAdt.style_json]. unfold SoundStruct.fields_json. destruct (ser_fields true (own_names fs) fs (parts l)) as [fe|]; [|discriminate].
    cbn [option_map]. assert (HE : exists x, flat_entries (if existsb f_flatten fs then VNewtypeVariant (v_ser w) (struct_value "" fs fe) else VStructVariant (v_ser w) fe)
      = Some [(v_ser w, x)] /\ json_of x = option_map (fun es => JObj (mk es)) (omap entry_json fe)).
    { destruct (existsb f_flatten fs) eqn:EF; (eexists; split; [reflexivity|]); [apply json_struct_value|apply json_struct]. }
    destruct HE as (x & -> & HX). cbn. rewrite HX. destruct (omap entry_json fe) as [es'|]; [|discriminate]. intros [= <-]. cbn. eauto.
Qed.

Lemma flat_adjacent tag content w l es : v_untagged w = false -> newtype_ok w -> flat_json (Adjacent tag content) w l = Some es ->
  if v_is_unit w then es = [(tag, JStr (v_ser w))]
  else exists c, style_json (v_style w) l = Some c /\ es = [(tag, JStr (v_ser w)); (content, c)].
Proof.
  intros HU HN. unfold flat_json, Serde.ser_variant. destruct (v_skip_ser w); [discriminate|]. rewrite HU. unfold v_is_unit, newtype_ok in *.
  assert (HC : match ser_untagged true (v_style w) (parts l) with
     | Some x => omap entry_json [(tag, VUnitVariant (v_ser w)); (content, x)] | None => None end = Some es ->
     exists c, style_json (v_style w) l = Some c /\ es = [(tag, JStr (v_ser w)); (content, c)]).
  { destruct (ser_untagged true (v_style w) (parts l)) as [x|] eqn:EX; [|discriminate].
    pose proof (untagged_style_json items text_ok (v_style w) l x HN EX) as HJ. cbn. rewrite HJ.
    destruct (style_json (v_style w) l) as [c|]; [|discriminate]. intros [= <-]. eauto. }
  destruct (v_style w) as [|f|fs|fs]; cbn [effective_style].
  - now intros [= <-].
  - rewrite (HN f eq_refl) in *. intros H. apply HC. now destruct (ser_untagged true (Newtype f) (parts l)).
  - intros H. apply HC. now destruct (ser_untagged true (Tuple fs) (parts l)).
  - intros H. apply HC. now destruct (ser_untagged true (Struct fs) (parts l)).
Qed.

Lemma flat_internal tag w l es : v_untagged w = false -> flat_json (Internal tag) w l = Some es ->
  match v_style w with
  | Unit => es = [(tag, JStr (v_ser w))]
  | Struct fs => exists es', fields_json fs l = Some es' /\ es = (tag, JStr (v_ser w)) :: es'
  | _ => True
  end.
Proof.
  intros HU. unfold flat_json, Serde.ser_variant. destruct (v_skip_ser w); [discriminate|]. rewrite HU.
  destruct (v_style w) as [|f|fs|fs]; cbn [effective_style]; auto.
  - now intros [= <-].
  - unfold SoundStruct.fields_json. destruct (ser_fields true (own_names fs) fs (parts l)) as [fe|]; [|discriminate]. cbn. fold (omap entry_json).
    destruct (omap entry_json fe) as [es'|]; [|discriminate]. intros [= <-]. eauto.
Qed.

(** The names a variant uses *)
Definition vdeclares (tg : tagging) (w : variant rval) (k : string) : Prop :=
  match tg with
  | External => k = v_ser w
  | Internal tag => k = tag \/ exists fs f, v_style w = Struct fs /\ In f fs /\ f_skip_ser f = false /\ field_declares items f k
  | Adjacent tag content => In k [tag; content]
  | Untagged => False
  end.
Definition flat_variant (tg : tagging) (w : variant rval) : Prop :=
  match tg with
  | External => v_is_unit w = false
  | Internal _ => match v_style w with Unit => True | Struct fs => closed_fields items fs | _ => False end
  | Adjacent _ _ => True
  | Untagged => False
  end.

(** Its schema: an object that requires its name or tag *)
Record vdoc (tg : tagging) (n : nat) (w : variant rval) (m : map_t) : Prop := {
  vd_shape : object_shape m;
  vd_then : mget "then" m = None;
  vd_else : mget "else" m = None;
  vd_type : mget "type" m = Some (JStr "object");
  vd_more : mget "additionalProperties" m = None \/ mget "additionalProperties" m = Some (JBool false);
  vd_names : forall k, mget k (props_of m) <> None -> vdeclares tg w k;
  vd_fits : forall l es, smaller n l -> flat_json tg w l = Some es -> fits (props_of m) (required_of m) es;
  vd_mark : match tg with
    | External => In (JStr (v_ser w)) (required_of m)
    | Internal tag | Adjacent tag _ => In (JStr tag) (required_of m) /\ mget tag (props_of m) = Some (tag_schema (v_ser w))
    | Untagged => False
    end }.

Lemma vdoc_get tg n w m m' : (forall c, In c kws \/ In c ctx -> mget c m' = mget c m) -> vdoc tg n w m -> vdoc tg n w m'.
Proof.
  intros G [D1 D2 D3 D4 D5 D6 D7 D8].
  assert (GT : mget "then" m' = mget "then" m) by (apply G; first [left; solve [cbn; auto 60]|right; solve [cbn; auto 60]]).
  assert (GE : mget "else" m' = mget "else" m) by (apply G; first [left; solve [cbn; auto 60]|right; solve [cbn; auto 60]]).
  assert (P1 : props_of m' = props_of m) by (unfold props_of; rewrite G; [reflexivity|left; in_names]).
  assert (R1 : required_of m' = required_of m) by (unfold required_of; rewrite G; [reflexivity|left; in_names]).
  destruct D1 as (K1 & K2 & K3 & K4). split; auto.
  - split; [|split; [|split]].
    + intros k Hk. rewrite G by auto. now apply K1.
    + rewrite G by (left; in_names). exact K2.
    + rewrite G by (left; in_names). exact K3.
    + rewrite G by (left; in_names). exact K4.
  - congruence.
  - congruence.
  - rewrite G by (left; in_names). exact D4.
  - rewrite G by (left; in_names). exact D5.
  - now rewrite P1.
  - rewrite P1, R1. exact D7.
  - now rewrite P1, R1.
Qed.
Lemma vdoc_meta tg n w l : forall m, wf_meta l -> vdoc tg n w m -> exists m', insert_all l (JObj m) = JObj m' /\ vdoc tg n w m'.
Proof.
  induction l as [|[k x] l IH]; intros m W H; [now exists m|]. rewrite insert_all_cons. unfold insert. cbn [fst snd ensure_obj ensure_object]. apply IH.
  - intros k' x' Hin. apply (W k' x'). now right.
  - destruct (W k x (or_introl eq_refl)) as [[A1 A2] _]. revert H. apply vdoc_get. intros c Hc. rewrite mget_mset.
    destruct (String.eqb_spec c k) as [->|]; [tauto|reflexivity].
Qed.

Lemma vdoc_leaf tg n w m : vdoc tg n w m -> PrepareEnum.leaf (JObj m).
Proof.
  intros H. exists m. split; [reflexivity|]. intros k Hk. cbn in Hk.
  assert (HA : forall c, In c kws -> ~ In c object_keywords -> mget c m = None).
  { intros c Hc Ho. apply shape_absent; auto. apply (vd_shape _ _ _ _ H). }
  repeat (destruct Hk as [<-|Hk]; [first [apply (vd_then _ _ _ _ H)|apply (vd_else _ _ _ _ H)
    |apply HA; [in_names|intros HO; cbn in HO; repeat (destruct HO as [HO|HO]; [discriminate|]); exact HO]]|]). destruct Hk.
Qed.

Lemma open_facts m : object_shape m -> (mget "additionalProperties" m = None \/ mget "additionalProperties" m = Some (JBool false)) ->
  object_shape (open_map m) /\ mget "additionalProperties" (open_map m) = None /\ props_of (open_map m) = props_of m
  /\ required_of (open_map m) = required_of m /\ forall k, ~ In k ["additionalProperties"; "unevaluatedProperties"] -> mget k (open_map m) = mget k m.
Proof.
  intros (K1 & K2 & K3 & K4) HA.
  assert (G : forall k, ~ In k ["additionalProperties"; "unevaluatedProperties"] -> mget k (open_map m) = mget k m).
  { intros k Hk. rewrite open_get. destruct (mem k _) eqn:EM; [apply mem_In in EM; contradiction|reflexivity]. }
  assert (GN : forall k, mget k (open_map m) <> None -> mget k m <> None).
  { intros k. rewrite open_get. destruct (_ && _); [congruence|auto]. }
  assert (N : forall k, In k ["type"; "properties"; "required"] -> ~ In k ["additionalProperties"; "unevaluatedProperties"]).
  { intros k [<-|[<-|[<-|[]]]] [HH|[HH|[]]]; discriminate. }
  split; [split; [|split; [|split]]|split; [|split; [|split]]].
  - intros k Hk HN. apply K1; auto.
  - rewrite G by (apply N; cbn; auto). exact K2.
  - rewrite G by (apply N; cbn; auto). exact K3.
  - rewrite G by (apply N; cbn; auto). exact K4.
  - rewrite open_get. destruct HA as [->| ->]; reflexivity.
  - unfold props_of. now rewrite G by (apply N; cbn; auto).
  - unfold required_of. now rewrite G by (apply N; cbn; auto).
  - exact G.
Qed.

(** An object without the name, or with another variant's tag *)
Definition lacks (tg : tagging) (w : variant rval) (o : map_t) : Prop :=
  match tg with
  | External => mget (v_ser w) o = None
  | Internal tag | Adjacent tag _ => exists name, name <> v_ser w /\ mget tag o = Some (JStr name)
  | Untagged => False
  end.

Lemma vdoc_reject tg n w m o : vdoc tg n w m -> lacks tg w o -> ok_ (opened_schema (JObj m)) (JObj o) = false.
Proof.
  intros H HL. destruct (open_facts m (vd_shape _ _ _ _ H) (vd_more _ _ _ _ H)) as (O1 & O2 & O3 & O4 & O5). cbn [opened_schema].
  pose proof (vd_mark _ _ _ _ H) as HM.
  assert (NT : forall tag name, name <> v_ser w -> mget tag o = Some (JStr name) -> In (JStr tag) (required_of m) -> mget tag (props_of m) = Some (tag_schema (v_ser w)) ->
     ok_ (JObj (open_map m)) (JObj o) = false).
  { intros tag name HN HO HR HP. apply not_true_iff_false. intros HV. rewrite <- O3 in HP. rewrite <- O4 in HR. unfold props_of in HP. unfold required_of in HR.
    destruct O1 as (K1 & K2 & [K3|[ps K3]] & [K4|[q K4]]); rewrite ?K3, ?K4 in *; try discriminate; try contradiction.
    destruct (tag_required (open_map m) ps q tag (v_ser w) (JObj o)) as (o' & [= <-] & HO'); auto; [|congruence].
    rewrite O5; [apply (vd_type _ _ _ _ H)|intros [HH|[HH|[]]]; discriminate]. }
  destruct tg as [| |tag|tag content]; cbn [lacks] in HL.
  - rewrite valid_shape by exact O1. rewrite O4. replace (required_ok (required_of m) (JObj o)) with false; [now rewrite andb_false_r|].
    symmetry. apply not_true_iff_false. cbn [required_ok]. rewrite forallb_forall. intros HR. specialize (HR _ HM). cbn in HR. unfold mhas in HR. now rewrite HL in HR.
  - contradiction.
  - destruct HL as (name & H1 & H2). destruct HM. eapply NT; eauto.
  - destruct HL as (name & H1 & H2). destruct HM. eapply NT; eauto.
Qed.
Lemma vdoc_accept (D : string -> Prop) tg n w m l es o : vdoc tg n w m -> smaller n l -> flat_json tg w l = Some es -> (forall k, vdeclares tg w k -> D k) ->
  NoDup (map fst o) -> agrees D o es -> ok_ (opened_schema (JObj m)) (JObj o) = true.
Proof.
  intros H HL HJ HD ND HO. destruct (open_facts m (vd_shape _ _ _ _ H) (vd_more _ _ _ _ H)) as (O1 & O2 & O3 & O4 & O5). cbn [opened_schema].
  apply (fits_agree E D (open_map m) es o); auto.
  - rewrite O3, O4. eapply vd_fits; eauto.
  - rewrite O3. intros k Hk. now apply HD, (vd_names _ _ _ _ H).
Qed.

(** The schema of a plain unit variant *)
Lemma unit_vdoc n w : v_untagged w = false -> v_is_unit w = true -> exists m, flattened_unit_variant (v_ser w) = JObj m /\ vdoc External n w m.
Proof.
  intros HU HI. eexists. split; [reflexivity|]. split; try reflexivity.
  - split; [|split; [|split]]; try (right; reflexivity); try (right; eexists; reflexivity).
    intros k Hk HN. apply mk_keys in HN. cbn in HN. repeat (destruct HN as [<-|HN]; [in_names|]). destruct HN.
  - now left.
  - intros k. cbn. destruct (String.eqb_spec k (v_ser w)) as [->|]; [reflexivity|congruence].
  - intros l es _ HJ. apply flat_external in HJ; auto.
    2:{ intros f Hf. unfold v_is_unit in HI. now rewrite Hf in HI. }
    rewrite HI in HJ. subst es. apply (fits_pairs E [(v_ser w, type_schema "null")] [(v_ser w, JNull)]).
    + repeat constructor. intros [].
    + repeat constructor.
  - now left.
Qed.

(** ** Schemas of variants *)
Record Z (tg : tagging) (n : nat) (w : variant rval) (s : json) : Prop := {
  z_safe : safe s;
  z_accept : forall l j, smaller n l -> vjson tg w l = Some j -> ok_ s j = true;
  z_carries : v_untagged w = false -> tg <> Untagged -> forall l j, smaller n l -> vjson tg w l = Some j -> carries tg (v_ser w) j;
  z_reject : v_untagged w = false -> tg <> Untagged -> forall name j, name <> v_ser w -> carries tg name j -> ok_ s j = false;
  z_flat : v_untagged w = false -> flat_variant tg w -> exists m, s = JObj m /\ vdoc tg n w m }.

Lemma Z_meta tg n w s : wf_meta (v_meta w) -> Z tg n w s -> Z tg n w (insert_all (v_meta w) s).
Proof.
  intros W [H1 H2 H3 H4 H5]. pose proof (sf_schema _ _ _ H1) as HS. split; auto.
  - apply safe_insert_all; auto. apply HFm.
  - intros l j HL HJ. rewrite valid_insert_all with (tok := tok); eauto.
  - intros HU HT name j HN HC. rewrite valid_insert_all with (tok := tok); eauto.
  - intros HU HF. destruct (H5 HU HF) as (m & -> & HD). now apply vdoc_meta.
Qed.

Lemma variant_name deny tg w : wf_variant ct deny tg w -> v_name ct w = v_ser w.
Proof. intros W. unfold v_name, name_for. destruct ct eqn:EC; [|reflexivity]. apply (wv_name _ _ _ _ _ _ W). congruence. Qed.

Lemma untagged_post tg n deny w Q k : wf_variant ct deny tg w -> v_untagged w = true \/ tg = Untagged ->
  (forall s, Z tg n w s -> post_ n Q (k s)) -> post_ n Q (untagged_variant deny ct w true k).
Proof.
  intros W HU HK. unfold untagged_variant. eapply style_post; eauto; [apply W|]. intros c (C1 & C2 & _). apply HK, Z_meta; [apply W|].
  split; auto.
  - intros l j HL HJ. apply (C2 l j HL). eapply vjson_untagged; eauto. intros f Hf. eapply wv_newtype; eauto.
  - intros H1 H2. destruct HU; congruence.
  - intros H1 H2. destruct HU; congruence.
  - intros H1 H2. destruct HU as [HU|HU]; [congruence|]. rewrite HU in H2. destruct H2.
Qed.

Lemma external_vdoc n w c : v_untagged w = false -> newtype_ok w -> v_is_unit w = false ->
  (forall l j, smaller n l -> style_json (v_style w) l = Some j -> ok_ c j = true) ->
  exists m, new_externally_tagged_enum_variant (v_ser w) c = JObj m /\ vdoc External n w m.
Proof.
  intros HU HN HI HC.
  assert (G : forall k, In k ["then"; "else"] -> s_get k (new_externally_tagged_enum_variant (v_ser w) c) = None) by (intros k [<-|[<-|[]]]; reflexivity).
  destruct (external_shape (v_ser w) c) as (m & HE & HS & HA & HP & HR & HT). rewrite HE in *. exists m. split; [reflexivity|]. split; auto.
  - apply (G "then"); cbn; auto.
  - apply (G "else"); cbn; auto.
  - intros k. rewrite HP. cbn. destruct (String.eqb_spec k (v_ser w)) as [->|]; [reflexivity|congruence].
  - intros l es HL HJ. apply flat_external in HJ; auto. rewrite HI in HJ. destruct HJ as (x & HJ & ->). rewrite HP, HR.
    apply (fits_pairs E [(v_ser w, c)] [(v_ser w, x)]); [repeat constructor; intros []|]. repeat constructor. cbn [snd]. eauto.
  - rewrite HR. now left.
Qed.

Lemma adjacent_vdoc n deny tag content w sub : v_untagged w = false -> newtype_ok w -> tag <> content ->
  (if v_is_unit w then sub = None else exists c, sub = Some c /\ forall l j, smaller n l -> style_json (v_style w) l = Some j -> ok_ c j = true) ->
  exists m, adjacent_schema deny tag content (v_ser w) sub = JObj m /\ vdoc (Adjacent tag content) n w m.
Proof.
  intros HU HN HT HC.
  assert (G : forall k, In k ["then"; "else"] -> s_get k (adjacent_schema deny tag content (v_ser w) sub) = None) by (intros k [<-|[<-|[]]]; destruct deny; reflexivity).
  destruct (adjacent_shape deny tag content (v_ser w) sub) as (m & HE & HS & HA & [HP HR] & HTy & _). rewrite HE in *. exists m. split; [reflexivity|].
  set (ps := (tag, tag_schema (v_ser w)) :: match sub with Some s => [(content, s)] | None => [] end) in *.
  assert (ND : NoDup (map fst ps)).
  { subst ps. destruct sub; cbn; repeat constructor; intros HH; cbn in HH; try (destruct HH as [HH|HH]; [congruence|]); exact HH. }
  assert (HM : mget tag (mk ps) = Some (tag_schema (v_ser w))) by (rewrite mget_mk_NoDup by exact ND; cbn; now rewrite String.eqb_refl).
  split; auto.
  - apply (G "then"); cbn; auto.
  - apply (G "else"); cbn; auto.
  - intros k Hk. unfold props_of in Hk. rewrite HP, mget_mk_NoDup in Hk by exact ND. apply mhas_In in Hk. cbn [vdeclares].
    subst ps. destruct sub; cbn in *; tauto.
  - intros l es HL HJ. apply flat_adjacent in HJ; auto. unfold props_of, required_of. rewrite HP, HR. apply fits_pairs; [exact ND|].
    assert (HX : ok_ (tag_schema (v_ser w)) (JStr (v_ser w)) = true) by (rewrite tag_schema_sem; now apply jeq_str).
    subst ps. destruct (v_is_unit w).
    + subst sub es. repeat constructor. exact HX.
    + destruct HC as (c & -> & HC). destruct HJ as (x & HJ & ->). repeat constructor; [exact HX|]. cbn [snd]. eauto.
  - unfold props_of, required_of. rewrite HP, HR. split; [now left|exact HM].
Qed.

Lemma tagged_vdoc n deny tag w m : v_untagged w = false -> usual m -> (forall k, In k kws -> mget k m <> None -> In k object_keywords) ->
  mget "then" m = None -> mget "else" m = None ->
  (mget "additionalProperties" m = None \/ mget "additionalProperties" m = Some (JBool false)) ->
  mget tag (props_of m) = None -> sorted_keys (map fst (props_of m)) = true ->
  (forall k, mget k (props_of m) <> None -> vdeclares (Internal tag) w k) ->
  (forall l es, smaller n l -> flat_json (Internal tag) w l = Some es ->
     exists es', es = (tag, JStr (v_ser w)) :: es' /\ fits (props_of m) (required_of m) es') ->
  exists m', apply_internal_tag tag (v_ser w) deny (JObj m) = JObj m' /\ vdoc (Internal tag) n w m'.
Proof.
  intros HU HUs HK H1 H2 HA HT HSo HN HF. destruct (tagged_shape tag (v_ser w) deny m HUs HK HA) as (T1 & T2 & T3 & T4). rewrite tagged_obj.
  pose proof (fun k => tagged_get tag (v_ser w) deny m k HUs) as G.
  eexists. split; [reflexivity|]. set (T := PrivateTag.tagged tag (v_ser w) deny m) in *. clearbody T. split; auto.
  - rewrite G. cbn [String.eqb Ascii.eqb Bool.eqb]. now rewrite andb_false_r.
  - rewrite G. cbn [String.eqb Ascii.eqb Bool.eqb]. now rewrite andb_false_r.
  - now rewrite G.
  - intros k. rewrite T3, mget_mset. destruct (String.eqb_spec k tag) as [->|]; [now left|apply HN].
  - intros l es HL HJ. destruct (HF l es HL HJ) as (es' & -> & F'). rewrite T3, T4.
    assert (F : fits (mappend [(tag, tag_schema (v_ser w))] (props_of m)) ([JStr tag] ++ required_of m) ([(tag, JStr (v_ser w))] ++ es')).
    { apply fits_app; auto.
      - apply (fits_pairs E [(tag, tag_schema (v_ser w))] [(tag, JStr (v_ser w))]); [repeat constructor; intros []|].
        repeat constructor. cbn [snd]. rewrite tag_schema_sem. apply jeq_str. reflexivity.
      - cbn. intros k. destruct (String.eqb_spec k tag) as [->|]; [congruence|auto]. }
    revert F. apply fits_lookup; [|auto]. intros k. rewrite mget_mappend_NoDup by (now apply sorted_NoDup). rewrite mget_mset. cbn [mget].
    destruct (String.eqb_spec k tag) as [->|]; [now rewrite HT|]. now destruct (mget k (props_of m)).
  - rewrite T3, T4, mget_mset, String.eqb_refl. split; [now left|reflexivity].
Qed.

Lemma external_post n deny w Q k : wf_variant ct deny External w ->
  (forall s, Z External n w s -> post_ n Q (k s)) -> post_ n Q (external_variant deny ct w k).
Proof.
  intros W HK. assert (HN : newtype_ok w) by (intros f Hf; eapply wv_newtype; eauto).
  unfold external_variant. destruct (v_untagged w) eqn:EU; [eapply untagged_post; eauto|].
  destruct (v_is_unit w) eqn:EI.
  - apply HK, Z_meta; [apply W|]. unfold new_unit_enum_variant. rewrite (variant_name _ _ _ W). split.
    + now apply safe_const.
    + intros l j _ HJ. apply vjson_external in HJ; auto. rewrite EI in HJ. subst j. rewrite valid_string_const. apply String.eqb_refl.
    + intros _ _ l j _ HJ. apply vjson_external in HJ; auto. rewrite EI in HJ. now left.
    + intros _ _ name j HD HC. rewrite valid_string_const. destruct HC as [->|(c & ->)]; [|reflexivity]. now apply String.eqb_neq.
    + intros _ HF. cbn in HF. congruence.
  - unfold untagged_variant. eapply style_post; eauto; [apply W|]. intros c (C1 & C2 & _). apply HK, Z_meta; [apply W|].
    rewrite (variant_name _ _ _ W). split.
    + apply (safe_external text_ok E HFm tok tok_fresh).
    + intros l j HL HJ. apply vjson_external in HJ; auto. rewrite EI in HJ. destruct HJ as (x & HJ & ->). apply (external_accepts E). eauto.
    + intros _ _ l j _ HJ. apply vjson_external in HJ; auto. rewrite EI in HJ. destruct HJ as (x & _ & ->). right. eauto.
    + intros _ _ name j HD HC. eapply external_rejects; eauto.
    + intros _ _. eapply external_vdoc; eauto.
Qed.

Lemma adjacent_post n deny tag content w Q k : tag <> content -> wf_variant ct deny (Adjacent tag content) w ->
  (forall s, Z (Adjacent tag content) n w s -> post_ n Q (k s)) -> post_ n Q (adjacent_variant deny ct tag content w k).
Proof.
  intros HT W HK. assert (HN : newtype_ok w) by (intros f Hf; eapply wv_newtype; eauto).
  assert (M1 : forall x, mget tag (mk [(tag, JStr (v_ser w)); (content, x)]) = Some (JStr (v_ser w))).
  { intros x. apply mget_mk_first; [|repeat constructor; intros []]. intros [HE|[]]. cbn in HE. congruence. }
  assert (M2 : mget tag (mk [(tag, JStr (v_ser w))]) = Some (JStr (v_ser w))) by (apply mget_mk_first; [intros []|constructor]).
  unfold adjacent_variant. destruct (v_untagged w) eqn:EU; [eapply untagged_post; eauto|].
  destruct (v_is_unit w) eqn:EI.
  - apply HK, Z_meta; [apply W|]. rewrite (variant_name _ _ _ W). split.
    + destruct (adjacent_shape deny tag content (v_ser w) None) as (m & -> & _ & _ & _ & _ & H). exact H.
    + intros l j _ HJ. apply vjson_adjacent in HJ; auto. rewrite EI in HJ. subst j. apply adjacent_unit.
    + intros _ _ l j _ HJ. apply vjson_adjacent in HJ; auto. rewrite EI in HJ. subst j. cbn [carries]. eauto.
    + intros _ _ name j HD HC. eapply adjacent_rejects; eauto.
    + intros _ _. apply adjacent_vdoc; auto; rewrite EI; auto.
  - unfold untagged_variant. eapply style_post; eauto; [apply W|]. intros c (C1 & C2 & _). apply HK, Z_meta; [apply W|].
    rewrite (variant_name _ _ _ W). split.
    + destruct (adjacent_shape deny tag content (v_ser w) (Some c)) as (m & -> & _ & _ & _ & _ & H). exact H.
    + intros l j HL HJ. apply vjson_adjacent in HJ; auto. rewrite EI in HJ. destruct HJ as (x & HJ & ->). apply adjacent_accepts; eauto.
    + intros _ _ l j _ HJ. apply vjson_adjacent in HJ; auto. rewrite EI in HJ. destruct HJ as (x & _ & ->). cbn [carries]. eauto.
    + intros _ _ name j HD HC. eapply adjacent_rejects; eauto.
    + intros _ _. apply adjacent_vdoc; auto; rewrite EI; eauto.
Qed.

Lemma st_mutators n fs deny m (f : field rval) : f_valid f = no_vattrs -> wf_meta (f_meta f) -> st n fs deny m ->
  exists m', field_mutators f (JObj m) = JObj m' /\ st n fs deny m'.
Proof.
  intros HC W H. destruct default_ann as (_ & A2 & A3). destruct (tok_default tok tok_fresh) as (_ & T2 & T3).
  destruct (st_meta _ _ _ _ _ n fs deny _ m W H) as (m1 & HE & H1). unfold field_mutators. rewrite HE, HC, no_mutators by reflexivity.
  destruct (f_skip_de f), (f_skip_ser f); unfold insert; cbn [ensure_obj ensure_object]; eexists; (split; [reflexivity|]);
    repeat (apply st_annotate; [assumption|assumption|]); exact H1.
Qed.

Lemma st_tagged n fs deny deny' m tag name : st n fs deny' m -> no_maps fs -> (forall f, In f fs -> f_skip_ser f = false -> ~ field_declares items f tag) ->
  safe (apply_internal_tag tag name deny (JObj m))
  /\ (forall l es, smaller n l -> fields_json fs l = Some es ->
       ok_ (apply_internal_tag tag name deny (JObj m)) (JObj (mk ((tag, JStr name) :: es))) = true
       /\ mget tag (mk ((tag, JStr name) :: es)) = Some (JStr name))
  /\ (forall name' j, name' <> name -> carries (Internal tag) name' j -> ok_ (apply_internal_tag tag name deny (JObj m)) j = false).
Proof.
  intros H HCl HD. destruct (st_shape _ _ _ _ _ _ _ _ _ H) as (K1 & K2 & K3 & K4).
  assert (HU : usual m) by (split; assumption).
  assert (NT : mget tag (props_of m) = None).
  { destruct (mget tag (props_of m)) eqn:EP; [|reflexivity]. exfalso.
    destruct (st_names _ _ _ _ _ _ _ _ _ H tag) as (f & Hf & Hs & Hk); [congruence|]. exact (HD f Hf Hs Hk). }
  split; [|split].
  - apply tagged_safe; auto. apply (st_tok _ _ _ _ _ _ _ _ _ H).
  - intros l es HL HE. pose proof (st_fits_closed _ _ _ _ _ _ _ _ _ _ _ H HCl HL HE) as HF. split.
    + apply tagged_accepts; auto; [|apply (st_psorted _ _ _ _ _ _ _ _ _ H)]. rewrite (st_closed _ _ _ _ _ _ _ _ _ H HCl). destruct deny'; auto.
    + apply mget_mk_first; [|apply HF]. intros HI. now apply (ft_known _ _ _ _ HF) in HI.
  - intros name' j HN HC. eapply tagged_rejects; eauto.
Qed.

Lemma internal_post n deny tag w Q k : wf_variant ct deny (Internal tag) w ->
  (forall s, Z (Internal tag) n w s -> post_ n Q (k s)) -> post_ n Q (internal_variant items deny ct tag w k).
Proof.
  intros W HK. assert (HN : newtype_ok w) by (intros f Hf; eapply wv_newtype; eauto).
  unfold internal_variant. destruct (v_untagged w) eqn:EU; [eapply untagged_post; eauto|].
  pose proof (wv_internal _ _ _ _ _ _ W tag eq_refl EU) as HI. pose proof (wv_style _ _ _ _ _ _ W) as WS.
  pose proof (fun l j => vjson_internal tag w l j EU HN HI) as HV.
  rewrite (variant_name _ _ _ W). destruct (v_style w) as [|f|fs|fs] eqn:ES.
  - unfold unit_prog. cbn [Derivation.post]. intros a HA. rewrite (A_unit _ _ _ _ _ _ HA). apply HK, Z_meta; [apply W|].
    change (type_schema "null") with (JObj [("type", JStr "null")]).
    assert (HU : usual [("type", JStr "null")]) by (split; left; reflexivity).
    assert (HO : forall k, In k kws -> mget k [(("type", JStr "null") : string * json)] <> None -> In k object_keywords).
    { intros c _. cbn. destruct (String.eqb_spec c "type") as [->|]; [intros _; now left|congruence]. }
    split.
    + apply tagged_safe; auto. cbn. destruct (String.eqb_spec tok "type") as [HE|]; [|reflexivity]. exfalso. apply tok_fresh. rewrite HE. in_names.
    + intros l j _ HJ. apply HV in HJ. subst j. apply tagged_accepts; auto.
      split; [constructor|intros c []|discriminate|intros c []].
    + intros _ _ l j _ HJ. apply HV in HJ. subst j. eexists. split; [reflexivity|]. apply mget_mk_first; [intros []|constructor].
    + intros _ _ name j HD HC. eapply tagged_rejects; eauto.
    + intros _ _. apply tagged_vdoc; auto.
      * intros c Hc. now elim Hc.
      * intros l es _ HJ. apply flat_internal in HJ; [|exact EU]. rewrite ES in HJ. exists []. split; [exact HJ|].
        split; [constructor|intros c []|discriminate|intros c []].
  - destruct HI as (HNo & i & cs & ts & def & fs & H1 & H2 & HCl & H3). destruct WS as [WS _]. unfold f_required. rewrite HNo. cbn [va_required no_vattrs]. cbn [Derivation.post]. intros d HD.
    destruct (p_struct _ _ _ _ _ _ _ HD i cs ts def fs H1 H2 (closed_no_enums _ _ HCl)) as (m & -> & HSt). pose proof (closed_no_maps _ _ HCl) as HCm.
    assert (NF : forall s, v_untagged w = false -> flat_variant (Internal tag) w -> exists m, s = JObj m /\ vdoc (Internal tag) n w m).
    { intros s _ HF. unfold flat_variant in HF. rewrite ES in HF. destruct HF. }
    set (dn := d_deny (it_decl (items i) cs ts)) in *.
    assert (ND : forall f0, In f0 fs -> f_skip_ser f0 = false -> ~ field_declares items f0 tag).
    { intros f0 Hf Hs HF. apply H3. econstructor; eauto. }
    assert (SZ : forall (x : rval) l', rsize (RSeq l') < n -> smaller (pred n) l').
    { intros _ l' HL y Hy. apply size_seq in Hy. lia. }
    (* inlined *)
    assert (INL : forall m', st (pred n) fs dn m' -> post_ n Q (k (insert_all (v_meta w) (apply_internal_tag tag (v_ser w) deny (field_mutators f (JObj m')))))).
    { intros m' HS'. destruct (st_mutators (pred n) fs dn m' f HNo WS HS') as (m2 & -> & HS2).
      destruct (st_tagged (pred n) fs deny dn m2 tag (v_ser w) HS2 HCm ND) as (T1 & T2 & T3). apply HK, Z_meta; [apply W|]. split; auto.
      - intros l j HL HJ. apply HV in HJ as (i' & cs' & ts' & def' & fs' & x & l' & sv & es & E1 & E2 & _ & -> & -> & E3 & E4 & E5 & ->).
        rewrite H1 in E1. injection E1 as <- <- <-. rewrite H2 in E2. injection E2 as <- <-.
        apply (T2 l' es); [|exact E5]. apply (SZ (RSeq l')), HL. now left.
      - intros _ _ l j HL HJ. apply HV in HJ as (i' & cs' & ts' & def' & fs' & x & l' & sv & es & E1 & E2 & _ & -> & -> & E3 & E4 & E5 & ->).
        rewrite H1 in E1. injection E1 as <- <- <-. rewrite H2 in E2. injection E2 as <- <-.
        eexists. split; [reflexivity|]. apply (T2 l' es); [|exact E5]. apply (SZ (RSeq l')), HL. now left. }
    unfold for_internal_newtype. rewrite immediate_none.
    2:{ intros c Hc. cbn in Hc.
        assert (HA : forall c, In c kws -> ~ In c object_keywords -> mget c m = None).
        { intros c' Hc' Ho. apply shape_absent; auto. apply (st_shape _ _ _ _ _ _ _ _ _ HSt). }
        repeat (destruct Hc as [<-|Hc]; [first [apply (st_then _ _ _ _ _ _ _ _ _ HSt)|apply (st_else _ _ _ _ _ _ _ _ _ HSt)
          |apply HA; [in_names|intros HO; cbn in HO; repeat (destruct HO as [HO|HO]; [discriminate|]); exact HO]]|]). destruct Hc. }
    set (inl := type_inline items (f_ty f) || _ || _ || _ || _ || _). destruct inl eqn:EInl; [now apply INL|]. cbn [Derivation.post].
    assert (HDn : dn = false).
    { destruct dn eqn:EDn; [|reflexivity]. unfold inl in EInl. rewrite !orb_false_iff in EInl. destruct EInl as (((_ & EA) & _) & _).
      unfold get_is_false, s_get in EA. rewrite (st_closed _ _ _ _ _ _ _ _ _ HSt HCm) in EA. discriminate. }
    intros a [HP|(r & -> & HSo & HOp & _)].
    { destruct (p_struct _ _ _ _ _ _ _ HP i cs ts def fs H1 H2 (closed_no_enums _ _ HCl)) as (m' & -> & HSt'). now apply INL. }
    destruct (ref_like_mutators r f HNo WS) as (m2 & -> & HRl). apply HK, Z_meta; [apply W|].
    assert (HO : plain_open items (f_ty f) tag) by (exists i, cs, ts, def, fs; auto).
    assert (HG : forall l j, smaller n l -> vjson (Internal tag) w l = Some j -> exists o, j = JObj (mset tag (JStr (v_ser w)) o)
       /\ sorted_keys (map fst o) = true /\ ok_ (new_ref r) j = true).
    { intros l j HL HJ. apply HV in HJ as (i' & cs' & ts' & def' & fs' & x & l' & sv & es & E1 & E2 & _ & -> & -> & E3 & E4 & E5 & ->).
      rewrite H1 in E1. injection E1 as <- <- <-. rewrite H2 in E2. injection E2 as <- <-.
      assert (HLx : rsize (RSeq l') < n) by (apply HL; now left).
      pose proof (st_fits_closed _ _ _ _ _ _ _ _ _ _ _ HSt HCm (SZ (RSeq l') l' HLx) E5) as HF.
      assert (NT : ~ In tag (map fst es)).
      { intros HIn. apply (ft_known _ _ _ _ HF) in HIn. destruct (st_names _ _ _ _ _ _ _ _ _ HSt tag HIn) as (g & Hg & Hs & Hk). exact (ND g Hg Hs Hk). }
      rewrite mk_cons by (auto; apply HF). exists (mk es). split; [reflexivity|]. split; [apply sorted_mk|].
      eapply HOp; eauto. }
    split.
    + eapply ref_tagged_safe; eauto.
    + intros l j HL HJ. destruct (HG l j HL HJ) as (o & -> & HSr & HR). eapply ref_tagged_accepts; eauto.
    + intros _ _ l j HL HJ. destruct (HG l j HL HJ) as (o & -> & _). eexists. split; [reflexivity|]. now rewrite mget_mset, String.eqb_refl.
    + intros _ _ name j HD' HC. eapply tagged_rejects; eauto. eapply ref_usual; eauto.
    + apply NF.
  - destruct HI.
  - destruct HI as [HCl HI]. destruct WS as [WS WSd]. pose proof (closed_no_maps _ _ HCl) as HCm.
    eapply struct_prog_post; eauto; [now apply closed_no_enums|]. intros m HSt.
    destruct (st_tagged n fs deny deny m tag (v_ser w) HSt HCm HI) as (T1 & T2 & T3). apply HK, Z_meta; [apply W|]. split; auto.
    + intros l j HL HJ. apply HV in HJ as (es & HE & ->). now apply (T2 l es).
    + intros _ _ l j HL HJ. apply HV in HJ as (es & HE & ->). eexists. split; [reflexivity|]. now apply (T2 l es).
    + intros _ _. destruct (st_shape _ _ _ _ _ _ _ _ _ HSt) as (K1 & K2 & K3 & K4). apply tagged_vdoc; auto.
      * split; assumption.
      * apply (st_then _ _ _ _ _ _ _ _ _ HSt).
      * apply (st_else _ _ _ _ _ _ _ _ _ HSt).
      * rewrite (st_closed _ _ _ _ _ _ _ _ _ HSt HCm). destruct deny; auto.
      * destruct (mget tag (props_of m)) eqn:EP; [|reflexivity]. exfalso.
        destruct (st_names _ _ _ _ _ _ _ _ _ HSt tag) as (f & Hf & Hs & Hk); [congruence|]. exact (HI f Hf Hs Hk).
      * apply (st_psorted _ _ _ _ _ _ _ _ _ HSt).
      * intros c Hc. right. destruct (st_names _ _ _ _ _ _ _ _ _ HSt c Hc) as (f & Hf & Hs & Hk). eauto 8.
      * intros l es HL HJ. apply flat_internal in HJ; [|exact EU]. rewrite ES in HJ. destruct HJ as (es' & HE & ->). exists es'. split; [reflexivity|].
        eapply st_fits_closed; eauto.
Qed.

(** ** Whole enums *)
Ltac no_dup := cbn [map fst]; repeat (constructor; [intros HH; cbn in HH; repeat (destruct HH as [HH|HH]; [discriminate|]); exact HH|]); constructor.
Definition live (vs : list (variant rval)) : list (variant rval) := filter (fun v => negb (v_skip_ser v)) vs.

Lemma variant_included (v : variant rval) : (ct = Deserialize -> v_skip_de v = v_skip_ser v) ->
  included (v_skip_de v) (v_skip_ser v) ct = negb (v_skip_ser v).
Proof. intros H. destruct ct; cbn; [now rewrite H|reflexivity]. Qed.

Lemma variants_post deny tg n one Q : (forall w k, wf_variant ct deny tg w -> (forall s, Z tg n w s -> post_ n Q (k s)) -> post_ n Q (one w k)) ->
  forall vs k, (forall v, In v vs -> ct = Deserialize -> v_skip_de v = v_skip_ser v) -> (forall v, In v vs -> v_skip_ser v = false -> wf_variant ct deny tg v) ->
  (forall ss, Forall2 (Z tg n) (live vs) ss -> post_ n Q (k ss)) -> post_ n Q (variants ct one vs k).
Proof.
  intros HO. induction vs as [|v vs IH]; intros k WS W HK; cbn [variants live filter] in *; [apply HK; constructor|].
  rewrite (variant_included v (WS v (or_introl eq_refl))). destruct (v_skip_ser v) eqn:ES; cbn [negb] in *.
  - apply IH; auto; intros w Hw; [apply WS|apply W]; now right.
  - apply HO; [apply W; auto; now left|]. intros s HZ. apply IH; [intros w Hw; apply WS; now right|intros w Hw; apply W; now right|].
    intros ss HF. apply HK. constructor; auto.
Qed.

Lemma none_of tg n name j ws ss : Forall2 (Z tg n) ws ss -> tg <> Untagged ->
  (forall w, In w ws -> v_untagged w = false /\ v_ser w <> name) -> carries tg name j -> filter (fun s => ok_ s j) ss = [].
Proof.
  intros HF HT. induction HF as [|w s ws ss HZ HF IH]; intros HW HC; [reflexivity|]. cbn [filter].
  destruct (HW w (or_introl eq_refl)) as [HU HN]. rewrite (z_reject _ _ _ _ HZ HU HT name j (not_eq_sym HN) HC).
  apply IH; auto. intros w' Hw. apply HW. now right.
Qed.

Lemma one_of tg n w l j ws ss : Forall2 (Z tg n) ws ss -> tg <> Untagged -> (forall x, In x ws -> v_untagged x = false) ->
  NoDup (map v_ser ws) -> In w ws -> smaller n l -> vjson tg w l = Some j -> List.length (filter (fun s => ok_ s j) ss) = 1.
Proof.
  intros HF HT. induction HF as [|w' s ws ss HZ HF IH]; intros HU HD HI HL HJ; [destruct HI|]. cbn [map] in HD. inversion HD as [|? ? HN HD']; subst.
  cbn [filter]. destruct HI as [->|HI].
  - rewrite (z_accept _ _ _ _ HZ l j HL HJ). cbn [List.length].
    rewrite (none_of tg n (v_ser w) j ws ss HF HT); [reflexivity| |].
    + intros x Hx. split; [apply HU; now right|]. intros HE. apply HN. rewrite <- HE. now apply in_map.
    + exact (z_carries _ _ _ _ HZ (HU w (or_introl eq_refl)) HT l j HL HJ).
  - assert (HC : carries tg (v_ser w) j).
    { assert (HX : exists s', Z tg n w s').
      { clear -HF HI. induction HF as [|a b ? ? HZ _ IH]; [destruct HI|]. destruct HI as [->|HI]; eauto. }
      destruct HX as (s' & HZ'). exact (z_carries _ _ _ _ HZ' (HU w (or_intror HI)) HT l j HL HJ). }
    rewrite (z_reject _ _ _ _ HZ (HU w' (or_introl eq_refl)) HT (v_ser w) j); [| |exact HC].
    + apply IH; auto. intros x Hx. apply HU. now right.
    + intros HE. apply HN. rewrite <- HE. now apply in_map.
Qed.

Lemma some_of tg n w l j ws ss : Forall2 (Z tg n) ws ss -> In w ws -> smaller n l -> vjson tg w l = Some j ->
  exists s, In s ss /\ ok_ s j = true.
Proof.
  intros HF HI HL HJ. induction HF as [|w' s ws ss HZ HF IH]; [destruct HI|]. destruct HI as [->|HI].
  - exists s. split; [now left|]. eapply z_accept; eauto.
  - destruct (IH HI) as (s' & H1 & H2). exists s'. split; [now right|exact H2].
Qed.

Lemma existsb_false_In {X} (f : X -> bool) l x : existsb f l = false -> In x l -> f x = false.
Proof. intros H HI. destruct (f x) eqn:EF; [|reflexivity]. exfalso. rewrite <- not_true_iff_false in H. apply H, existsb_exists. eauto. Qed.

Lemma variant_schemas_accepts tg n unique vs w l j ss : Forall2 (Z tg n) (live vs) ss -> (unique = true -> tg <> Untagged) ->
  NoDup (map v_ser (live vs)) -> In w (live vs) -> smaller n l -> vjson tg w l = Some j ->
  ok_ (variant_schemas unique vs ss) j = true.
Proof.
  intros HF HT HD HI HL HJ. unfold variant_schemas.
  destruct (unique && negb (existsb v_untagged vs)) eqn:EU.
  - apply andb_true_iff in EU as [-> EU]. apply negb_true_iff in EU. rewrite valid_oneOf. apply Nat.eqb_eq. eapply one_of; eauto.
    intros x Hx. apply (existsb_false_In _ _ _ EU). unfold live in Hx. apply filter_In in Hx. tauto.
  - rewrite valid_anyOf. apply existsb_exists. eapply some_of; eauto.
Qed.

Lemma safe_variant_schemas unique (vs : list (variant rval)) ss : Forall safe ss -> safe (variant_schemas unique vs ss).
Proof. intros H. unfold variant_schemas. apply safe_subs; auto. destruct (_ && _); auto. Qed.

Lemma Z_all_safe tg n ws ss : Forall2 (Z tg n) ws ss -> Forall safe ss.
Proof. induction 1; constructor; auto. apply (z_safe _ _ _ _ H). Qed.

Lemma valid_unit_names (vs : list (variant rval)) v :
  (forall w, In w vs -> ct = Deserialize -> v_skip_de w = v_skip_ser w) -> (forall w, In w (live vs) -> v_name ct w = v_ser w) -> ok_ (unit_names ct vs) v =
  match v with JStr s => existsb (fun w => String.eqb s (v_ser w)) (live vs) | _ => false end.
Proof.
  intros HS HN. unfold unit_names.
  replace (filter _ vs) with (live vs) by (apply filter_ext_in; intros w Hw; now rewrite variant_included by auto).
  rewrite (map_ext_in (fun w => JStr (v_name ct w)) (fun w => JStr (v_ser w))) by (intros w Hw; now rewrite HN).
  unfold obj. rewrite valid_mk by no_dup. cbn [forallb fst snd]. unfold kw.
  cbn [String.eqb Ascii.eqb Bool.eqb existsb assertion_names orb]. rewrite chk_type_str. destruct v; try reflexivity.
  rewrite andb_true_r. cbn [type_ok String.eqb Ascii.eqb Bool.eqb andb chk_enum]. clear HS HN.
  induction (live vs) as [|w ws IH]; [reflexivity|]. cbn [map existsb]. rewrite IH. f_equal.
Qed.

Lemma safe_unit_names (vs : list (variant rval)) : safe (unit_names ct vs).
Proof. unfold unit_names. apply safe_obj; [exact (fm_null _ _ HFm)|exact tok_fresh|reflexivity|reflexivity|reflexivity]. Qed.

Lemma live_filter f vs : live (filter f vs) = filter f (live vs).
Proof.
  induction vs as [|v vs IH]; [reflexivity|]. cbn [filter live]. destruct (f v) eqn:EF, (v_skip_ser v) eqn:ES; cbn [live filter negb]; rewrite ?ES, ?EF; cbn [negb];
    fold (live vs); fold (live (filter f vs)); now rewrite IH.
Qed.

Lemma NoDup_filter_map f (vs : list (variant rval)) : NoDup (map v_ser vs) -> NoDup (map v_ser (filter f vs)).
Proof.
  induction vs as [|v vs IH]; intros H; [constructor|]. inversion H as [|? ? HN HD]; subst. cbn [filter]. destruct (f v); auto. cbn [map].
  constructor; auto. intros HI. apply HN. apply in_map_iff in HI as (x & HE & Hx). apply filter_In in Hx. rewrite <- HE. apply in_map. tauto.
Qed.

Lemma NoDup_same (vs : list (variant rval)) a b : NoDup (map v_ser vs) -> In a vs -> In b vs -> v_ser a = v_ser b -> a = b.
Proof.
  induction vs as [|v vs IH]; intros H HA HB HE; [destruct HA|]. inversion H as [|? ? HN HD]; subst.
  destruct HA as [->|HA], HB as [->|HB]; auto; exfalso; apply HN; [rewrite HE|rewrite <- HE]; now apply in_map.
Qed.

Lemma vjson_live tg w l j : vjson tg w l = Some j -> v_skip_ser w = false.
Proof. unfold vjson, Serde.ser_variant. destruct (v_skip_ser w); [discriminate|reflexivity]. Qed.

Lemma in_live vs w tg l j : In w vs -> vjson tg w l = Some j -> In w (live vs).
Proof. intros HI HJ. unfold live. apply filter_In. split; [exact HI|]. now rewrite (vjson_live _ _ _ _ HJ). Qed.

Lemma plain_facts (w : variant rval) : plain_unit w = true -> v_is_unit w = true /\ v_untagged w = false.
Proof. unfold plain_unit. rewrite !andb_true_iff, negb_true_iff. tauto. Qed.

Lemma plain_json w l j : plain_unit w = true -> vjson External w l = Some j -> j = JStr (v_ser w).
Proof.
  intros HP HJ. destruct (plain_facts _ HP) as [H1 H2]. apply vjson_external in HJ; auto.
  - now rewrite H1 in HJ.
  - intros f Hf. unfold v_is_unit in H1. now rewrite Hf in H1.
Qed.

(** Of the variants' schemas, prepared for flattening, exactly one accepts what a value is part of. *)
Definition vsdeclare (tg : tagging) (vs : list (variant rval)) (k : string) : Prop := exists w, In w vs /\ v_skip_ser w = false /\ vdeclares tg w k.

Lemma alts_one tg n vs ws ss w l es :
  Forall2 (fun w s => exists m, s = JObj m /\ vdoc tg n w m) ws ss -> (forall x, In x ws -> In x vs /\ v_skip_ser x = false) ->
  NoDup (map v_ser ws) -> In w ws -> smaller n l -> flat_json tg w l = Some es ->
  NoDup (map fst es) /\ (forall k, In k (map fst es) -> vsdeclare tg vs k)
  /\ forall o, NoDup (map fst o) -> agrees (vsdeclare tg vs) o es ->
       List.length (filter (fun s => ok_ s (JObj o)) (map opened_schema ss)) = 1.
Proof.
  intros HF HV HD HI HL HJ.
  assert (HM : exists m, vdoc tg n w m).
  { clear -HF HI. induction HF as [|a b ? ? (m & _ & HZ) _ IH]; [destruct HI|]. destruct HI as [->|HI]; eauto. }
  destruct HM as (m & HM). pose proof (vd_fits _ _ _ _ HM l es HL HJ) as [F1 F2 F3 F4]. destruct (HV w HI) as [V1 V2].
  assert (DW : forall k, vdeclares tg w k -> vsdeclare tg vs k) by (intros k Hk; exists w; auto).
  split; [exact F1|]. split; [intros k Hk; apply DW, (vd_names _ _ _ _ HM), (F2 k Hk)|]. intros o ND HO.
  assert (LK : forall x, In x ws -> v_ser x <> v_ser w -> lacks tg x o).
  { intros x Hx HN. destruct (HV x Hx) as [X1 X2]. pose proof (vd_mark _ _ _ _ HM) as MK.
    assert (TG : forall tag, vdeclares tg w tag -> In (JStr tag) (required_of m) /\ mget tag (props_of m) = Some (tag_schema (v_ser w)) ->
       exists name, name <> v_ser x /\ mget tag o = Some (JStr name)).
    { intros tag HT [M1 M2]. exists (v_ser w). split; [congruence|]. rewrite HO by now apply DW.
      pose proof (F4 tag M1) as HG. destruct (mget tag es) as [y|] eqn:EY; [|congruence]. specialize (F3 tag _ y M2 EY).
      rewrite tag_schema_sem in F3. apply jeq_str in F3. congruence. }
    destruct tg as [| |tag|tag content]; cbn [lacks].
    - rewrite HO by (exists x; cbn; auto). destruct (mget (v_ser x) es) eqn:EX; [|reflexivity]. exfalso. apply HN.
      apply (vd_names _ _ _ _ HM), F2, mhas_In. congruence.
    - destruct MK.
    - apply TG; [now left|exact MK].
    - apply TG; [now left|exact MK]. }
  assert (NONE : forall ws ss, Forall2 (fun w s => exists m, s = JObj m /\ vdoc tg n w m) ws ss -> (forall x, In x ws -> lacks tg x o) ->
     filter (fun s => ok_ s (JObj o)) (map opened_schema ss) = []).
  { clear. intros ws ss HF. induction HF as [|a b ws ss (m & -> & HZ) _ IH]; intros HL; [reflexivity|]. cbn [map filter].
    rewrite (vdoc_reject _ _ _ _ _ HZ (HL a (or_introl eq_refl))). apply IH. intros x Hx. apply HL. now right. }
  clear HM m F1 F2 F3 F4. revert HD HI LK. clear HV. induction HF as [|a b ws ss (m & -> & HZ) HF IH]; intros HD HI LK; [destruct HI|].
  cbn [map] in HD. inversion HD as [|? ? HN HD']; subst. cbn [map filter]. destruct HI as [->|HI].
  - rewrite (vdoc_accept (vsdeclare tg vs) tg n w m l es o HZ HL HJ DW ND HO). cbn [List.length]. rewrite (NONE ws ss HF); [reflexivity|].
    intros x Hx. apply LK; [now right|]. intros HE. apply HN. rewrite <- HE. now apply in_map.
  - rewrite (vdoc_reject _ _ _ _ o HZ).
    + apply IH; auto. intros x Hx. apply LK. now right.
    + apply LK; [now left|]. intros HE. apply HN. rewrite HE. now apply in_map.
Qed.

Definition flat_ok (n : nat) (tg : tagging) (vs : list (variant rval)) (c : json) : Prop :=
  flat_enum items tg vs -> exists us ss m, c = JObj m /\ enum_doc us ss m /\
    forall w l es, In w vs -> smaller n l -> flat_json tg w l = Some es ->
      NoDup (map fst es) /\ (forall k, In k (map fst es) -> vsdeclare tg vs k)
      /\ forall o, NoDup (map fst o) -> agrees (vsdeclare tg vs) o es ->
           List.length (filter (fun s => ok_ s (JObj o)) (all_variants us ss)) = 1.

Lemma flat_live tg w l es : flat_json tg w l = Some es -> v_skip_ser w = false.
Proof. unfold flat_json, Serde.ser_variant. destruct (v_skip_ser w); [discriminate|reflexivity]. Qed.

Lemma Z_docs tg n ws ss : Forall2 (Z tg n) ws ss -> (forall w, In w ws -> v_untagged w = false /\ flat_variant tg w) ->
  Forall2 (fun w s => exists m, s = JObj m /\ vdoc tg n w m) ws ss.
Proof.
  intros HF. induction HF as [|w s ws ss HZ HF IH]; intros HW; constructor.
  - destruct (HW w (or_introl eq_refl)) as [H1 H2]. exact (z_flat _ _ _ _ HZ H1 H2).
  - apply IH. intros x Hx. apply HW. now right.
Qed.
Lemma docs_leaves tg n ws ss : Forall2 (fun w s => exists m, s = JObj m /\ vdoc tg n w m) ws ss ->
  Forall PrepareEnum.leaf ss /\ match ss with s :: _ => get_is_str "type" "string" s = false | [] => True end.
Proof.
  intros HF. split.
  - induction HF as [|w s ws ss (m & -> & HZ) HF IH]; constructor; auto. eapply vdoc_leaf; eauto.
  - destruct HF as [|w s ws ss (m & -> & HZ) HF]; [exact I|]. unfold get_is_str, s_get. now rewrite (vd_type _ _ _ _ HZ).
Qed.

(** Enums with a tag *)
Lemma flat_tagged n tg vs ss : tg <> External -> Forall2 (Z tg n) (live vs) ss -> NoDup (map v_ser (live vs)) -> flat_ok n tg vs (variant_schemas true vs ss).
Proof.
  intros HT HF HD (FE0 & FE1 & FE2).
  assert (HFv : forall w, In w (live vs) -> v_untagged w = false /\ flat_variant tg w).
  { intros w Hw. apply filter_In in Hw as [Hw Hs]. apply negb_true_iff in Hs. split; [auto|]. specialize (FE2 w Hw Hs).
    destruct tg; cbn; auto; congruence. }
  pose proof (Z_docs _ _ _ _ HF HFv) as HDc. destruct (docs_leaves _ _ _ _ HDc) as [L1 L2].
  unfold variant_schemas. replace (existsb v_untagged vs) with false.
  2:{ symmetry. apply not_true_iff_false. rewrite existsb_exists. intros (w & Hw & HU). rewrite (FE1 w Hw) in HU. discriminate. }
  cbn [negb andb]. exists [], ss. eexists. split; [reflexivity|]. split.
  - split; try reflexivity; auto.
    + intros k _. cbn. destruct (String.eqb_spec k "oneOf") as [->|]; [auto|congruence].
    + right. repeat split. left. repeat split. exact L2.
  - intros w l es Hw HL HJ. unfold all_variants. cbn [map]. rewrite app_nil_r. eapply alts_one; eauto.
    + intros x Hx. apply filter_In in Hx as [Hx Hs]. apply negb_true_iff in Hs. auto.
    + apply filter_In. split; [exact Hw|]. now rewrite (flat_live _ _ _ _ HJ).
Qed.

Lemma unit_docs n ws : (forall w, In w ws -> v_untagged w = false /\ v_is_unit w = true) ->
  Forall2 (fun w s => exists m, s = JObj m /\ vdoc External n w m) ws (map flattened_unit_variant (map v_ser ws)).
Proof.
  induction ws as [|w ws IH]; intros H; constructor.
  - destruct (H w (or_introl eq_refl)). now apply unit_vdoc.
  - apply IH. intros x Hx. apply H. now right.
Qed.

Lemma opened_units us : map flattened_unit_variant us = map opened_schema (map flattened_unit_variant us).
Proof. induction us as [|u us IH]; [reflexivity|]. cbn [map]. now rewrite <- IH, opened_unit. Qed.

Lemma unit_names_shape (units : list (variant rval)) : (forall w, In w units -> ct = Deserialize -> v_skip_de w = v_skip_ser w) ->
  (forall w, In w (live units) -> v_name ct w = v_ser w) ->
  unit_names ct units = obj [("type", JStr "string"); ("enum", JArr (map JStr (map v_ser (live units))))].
Proof.
  intros HS HN. unfold unit_names.
  replace (filter _ units) with (live units) by (apply filter_ext_in; intros w Hw; now rewrite variant_included by auto).
  rewrite map_map. rewrite (map_ext_in (fun w => JStr (v_name ct w)) (fun w => JStr (v_ser w))) by (intros w Hw; now rewrite HN). reflexivity.
Qed.

(** Externally tagged enums, given the schemas of the variants that are no plain units *)
Lemma flat_external_ok n vs ss c : let units := filter plain_unit vs in let cpx := filter (fun v => negb (plain_unit v)) vs in
  (forall w, In w units -> ct = Deserialize -> v_skip_de w = v_skip_ser w) -> (forall w, In w (live units) -> v_name ct w = v_ser w) ->
  NoDup (map v_ser (live vs)) -> Forall2 (Z External n) (live cpx) ss ->
  c = match cpx with [] => unit_names ct units | _ => variant_schemas true cpx (match units with [] => ss | _ => unit_names ct units :: ss end) end ->
  flat_ok n External vs c.
Proof.
  intros units cpx HS HN HD HF HC (_ & FE1 & FE2).
  assert (HFv : forall w, In w (live cpx) -> v_untagged w = false /\ flat_variant External w).
  { intros w Hw. apply filter_In in Hw as [Hw Hs]. apply negb_true_iff in Hs. apply filter_In in Hw as [Hw HP]. split; [auto|].
    cbn. destruct (v_is_unit w) eqn:EI; [|reflexivity]. exfalso. unfold plain_unit in HP. rewrite EI, (FE1 w Hw) in HP. cbn [andb negb] in HP.
    rewrite (FE2 w Hw Hs) in HP; [discriminate|]. unfold v_is_unit in EI. now destruct (v_style w). }
  assert (HUn : forall w, In w (live units) -> v_untagged w = false /\ v_is_unit w = true).
  { intros w Hw. apply filter_In in Hw as [Hw Hs]. apply filter_In in Hw as [Hw HP]. apply plain_facts in HP. tauto. }
  pose proof (Z_docs _ _ _ _ HF HFv) as HDc. destruct (docs_leaves _ _ _ _ HDc) as [L1 L2].
  pose proof (unit_docs n (live units) HUn) as HDu.
  pose proof (Forall2_app HDc HDu) as HDa.
  set (us := map v_ser (live units)) in *.
  assert (ALT : forall w l es, In w vs -> smaller n l -> flat_json External w l = Some es ->
      NoDup (map fst es) /\ (forall k, In k (map fst es) -> vsdeclare External vs k)
      /\ forall o, NoDup (map fst o) -> agrees (vsdeclare External vs) o es ->
           List.length (filter (fun s => ok_ s (JObj o)) (all_variants us ss)) = 1).
  { intros w l es Hw HL HJ. unfold all_variants. rewrite opened_units, <- map_app.
    assert (HIn : forall x, In x (live cpx ++ live units) <-> In x (live vs)).
    { intros x. unfold cpx, units. rewrite !live_filter, in_app_iff, !filter_In. destruct (plain_unit x); cbn [negb]; intuition discriminate. }
    eapply alts_one with (ws := live cpx ++ live units) (w := w); eauto.
    - intros x Hx. apply HIn, filter_In in Hx as [Hx Hs]. apply negb_true_iff in Hs. auto.
    - rewrite map_app. unfold cpx, units. rewrite !live_filter. apply NoDup_app_intro; try (now apply NoDup_filter_map).
      intros k Hk1 Hk2. apply in_map_iff in Hk1 as (a & A1 & A2), Hk2 as (b & B1 & B2). apply filter_In in A2 as [A2 A3], B2 as [B2 B3].
      assert (a = b) by (eapply NoDup_same; eauto; congruence). subst b. rewrite B3 in A3. discriminate.
    - apply HIn, filter_In. split; [exact Hw|]. now rewrite (flat_live _ _ _ _ HJ). }
  assert (NU : existsb v_untagged cpx = false).
  { apply not_true_iff_false. rewrite existsb_exists. intros (w & Hw & HU). apply filter_In in Hw as [Hw _]. rewrite (FE1 w Hw) in HU. discriminate. }
  rewrite (unit_names_shape units HS HN) in HC. fold us in HC.
  destruct cpx as [|c0 cpx0] eqn:EC.
  - cbn in HF. inversion HF; subst ss. exists us, []. eexists. split; [rewrite HC; reflexivity|]. split; [|exact ALT].
    split; try reflexivity; [|constructor|left; repeat split].
    intros k _ HK. apply mk_keys in HK. cbn in HK |- *. tauto.
  - rewrite <- EC in *. clear EC. unfold variant_schemas in HC. rewrite NU in HC. cbn [negb andb] in HC.
    exists us, ss. eexists. split; [rewrite HC; reflexivity|]. split; [|exact ALT].
    split; try reflexivity; auto.
    + intros k _. cbn. destruct (String.eqb_spec k "oneOf") as [->|]; [auto|congruence].
    + right. split; [reflexivity|]. split; [reflexivity|]. destruct units as [|u0 us0].
      * left. split; [reflexivity|]. split; [reflexivity|exact L2].
      * right. eexists. split; [reflexivity|]. split; reflexivity.
Qed.

Definition enum_ok (n : nat) (tg : tagging) (vs : list (variant rval)) (c : json) : Prop :=
  safe c /\ (forall w l j, In w vs -> smaller n l -> vjson tg w l = Some j -> ok_ c j = true) /\ flat_ok n tg vs c.

Lemma enum_post n deny tg vs Q k : wf_enum ct deny tg vs -> (forall c, enum_ok n tg vs c -> post_ n Q (k c)) ->
  post_ n Q (enum_prog items deny ct tg vs k).
Proof.
  intros W HK. unfold enum_prog. destruct vs as [|v0 vs0] eqn:EV; [now destruct (we_some _ _ _ _ _ _ W)|].
  rewrite <- EV in *. clear EV v0 vs0. pose proof (we_names _ _ _ _ _ _ W) as HD. fold (live vs) in HD.
  pose proof (we_variants _ _ _ _ _ _ W) as WV.
  destruct tg as [| |tag|tag content].
  - set (units := filter plain_unit vs). set (cpx := filter (fun v => negb (plain_unit v)) vs).
    assert (HC : forall w, In w vs -> In w units \/ In w cpx).
    { intros w Hw. unfold units, cpx. rewrite !filter_In. destruct (plain_unit w) eqn:EP; auto. }
    assert (HUs : forall w, In w units -> ct = Deserialize -> v_skip_de w = v_skip_ser w).
    { intros w Hw. apply (we_written _ _ _ _ _ _ W). apply filter_In in Hw. tauto. }
    assert (HUm : forall w, In w (live units) -> v_name ct w = v_ser w).
    { intros w Hw. apply filter_In in Hw as [Hw HS']. apply filter_In in Hw as [Hw _]. apply variant_name with (deny := deny) (tg := External).
      apply WV; [exact Hw|]. now destruct (v_skip_ser w). }
    assert (HUn : forall w l j, In w units -> vjson External w l = Some j -> j = JStr (v_ser w) /\ ok_ (unit_names ct units) j = true).
    { intros w l j Hw HJ. pose proof Hw as Hw'. apply filter_In in Hw' as [_ HP]. pose proof (plain_json _ _ _ HP HJ) as ->. split; [reflexivity|].
      rewrite valid_unit_names by assumption. apply existsb_exists. exists w. split; [eapply in_live; eauto|apply String.eqb_refl]. }
    assert (HCx : forall n w s l j, In w cpx -> v_untagged w = false -> Z External n w s -> smaller n l -> vjson External w l = Some j ->
        ok_ (unit_names ct units) j = false).
    { intros n' w s l j Hw HU HZ HL HJ. rewrite valid_unit_names by assumption. pose proof (z_carries _ _ _ _ HZ HU ltac:(discriminate) l j HL HJ) as [->|(c & ->)]; [|reflexivity].
      apply not_true_iff_false. rewrite existsb_exists. intros (u & Hu & HE). apply String.eqb_eq in HE.
      unfold units in Hu. rewrite live_filter in Hu. apply filter_In in Hu as [Hu HP].
      assert (HX : w = u). { eapply NoDup_same; eauto. apply filter_In in Hw. eapply in_live; [apply Hw|exact HJ]. }
      subst u. apply filter_In in Hw as [_ Hw]. rewrite HP in Hw. discriminate. }
    assert (HDc : NoDup (map v_ser (live cpx))) by (unfold cpx; rewrite live_filter; now apply NoDup_filter_map).
    assert (HDisj : forall u x, In u (live units) -> In x (live cpx) -> v_ser x <> v_ser u).
    { intros u x Hu Hx HE. unfold units, cpx in *. rewrite live_filter in *. apply filter_In in Hu as [Hu HP]. apply filter_In in Hx as [Hx HP'].
      rewrite (NoDup_same _ _ _ HD Hx Hu HE), HP in HP'. discriminate. }
    assert (WC : forall v, In v cpx -> v_skip_ser v = false -> wf_variant ct deny External v) by (intros v Hv; apply WV; apply filter_In in Hv; tauto).
    assert (WSc : forall v, In v cpx -> ct = Deserialize -> v_skip_de v = v_skip_ser v) by (intros v Hv; apply (we_written _ _ _ _ _ _ W); apply filter_In in Hv; tauto).
    assert (FLT : forall ss c, Forall2 (Z External n) (live cpx) ss ->
      c = match cpx with [] => unit_names ct units | _ => variant_schemas true cpx (match units with [] => ss | _ => unit_names ct units :: ss end) end ->
      flat_ok n External vs c) by (intros ss c; now apply flat_external_ok).
    clear HUs HUm. clearbody cpx.
    destruct cpx as [|c0 cpx0] eqn:EC.
    + apply HK. split; [apply safe_unit_names|]. split; [|apply (FLT []); [constructor|reflexivity]]. intros w l j Hw HL HJ. destruct (HC w Hw) as [Hu|[]]. eapply HUn; eauto.
    + assert (NE : c0 :: cpx0 <> []) by discriminate. rewrite <- EC in *. clear EC c0 cpx0. apply variants_post with (deny := deny) (tg := External); [intros; now apply external_post|exact WSc|exact WC|].
      intros ss HF. apply HK. pose proof (Z_all_safe _ _ _ _ HF) as HSf.
      assert (HS2 : Forall safe (match units with [] => ss | _ => unit_names ct units :: ss end)).
      { destruct units; auto. constructor; auto. apply safe_unit_names. }
      split; [now apply safe_variant_schemas|]. split; [|apply (FLT ss); [exact HF|]; destruct cpx; [|reflexivity]; now elim NE]. intros w l j Hw HL HJ. pose proof (HC w Hw) as HC'.
      destruct units as [|u0 us] eqn:EUs.
      * destruct HC' as [[]|HC']. eapply variant_schemas_accepts; eauto; [discriminate|eapply in_live; eauto].
      * rewrite <- EUs in *. clear EUs u0 us. destruct HC' as [HC'|HC'].
        -- destruct (HUn w l j HC' HJ) as [-> HOk]. unfold variant_schemas. destruct (true && negb (existsb v_untagged cpx)) eqn:EU.
           ++ cbn [andb] in EU. apply negb_true_iff in EU. rewrite valid_oneOf. cbn [filter]. rewrite HOk. cbn [List.length].
              rewrite (none_of External n (v_ser w) _ _ _ HF); [reflexivity|discriminate| |now left].
              intros x Hx. split; [apply (existsb_false_In _ _ _ EU); apply filter_In in Hx; tauto|]. apply HDisj; auto. eapply in_live; eauto.
           ++ rewrite valid_anyOf. cbn [existsb]. now rewrite HOk.
        -- pose proof (in_live _ _ _ _ _ HC' HJ) as HIL.
           assert (HZ : exists s, Z External n w s).
           { clear -HF HIL. induction HF as [|a b ? ? HZ _ IH]; [destruct HIL|]. destruct HIL as [->|HI]; eauto. }
           destruct HZ as (sz & HZ).
           unfold variant_schemas. destruct (true && negb (existsb v_untagged cpx)) eqn:EU.
           ++ cbn [andb] in EU. apply negb_true_iff in EU. rewrite valid_oneOf. cbn [filter].
              rewrite (HCx n w sz l j HC'); auto; [|now apply (existsb_false_In _ _ _ EU)].
              apply Nat.eqb_eq. eapply one_of; eauto; [discriminate|].
              intros x Hx. apply (existsb_false_In _ _ _ EU); apply filter_In in Hx; tauto.
           ++ rewrite valid_anyOf. cbn [existsb]. apply orb_true_iff. right. apply existsb_exists. eapply some_of; eauto.
  - apply variants_post with (deny := deny) (tg := Untagged); [intros; apply untagged_post with (tg := Untagged); auto|exact (we_written _ _ _ _ _ _ W)|exact WV|]. intros ss HF. apply HK. split; [now apply safe_variant_schemas; eapply Z_all_safe; eauto|].
    split; [|intros [HX _]; congruence]. intros w l j Hw HL HJ. eapply variant_schemas_accepts; eauto; [discriminate|eapply in_live; eauto].
  - apply variants_post with (deny := deny) (tg := Internal tag); [intros; now apply internal_post|exact (we_written _ _ _ _ _ _ W)|exact WV|]. intros ss HF. apply HK. split; [now apply safe_variant_schemas; eapply Z_all_safe; eauto|].
    split; [|now apply flat_tagged]. intros w l j Hw HL HJ. eapply variant_schemas_accepts; eauto; [discriminate|eapply in_live; eauto].
  - apply variants_post with (deny := deny) (tg := Adjacent tag content); [intros; apply adjacent_post; auto; apply (we_tags _ _ _ _ _ _ W); auto|exact (we_written _ _ _ _ _ _ W)|exact WV|]. intros ss HF. apply HK. split; [now apply safe_variant_schemas; eapply Z_all_safe; eauto|].
    split; [|now apply flat_tagged]. intros w l j Hw HL HJ. eapply variant_schemas_accepts; eauto; [discriminate|eapply in_live; eauto].
Qed.

(** ** Declarations *)
Definition values (v : rval) : list rval := match v with RSeq l | RVariant _ l => l | _ => [] end.

Lemma repr_ok zs z : In z zs -> ok_ (repr_schema zs) (JNum (NInt z)) = true.
Proof.
  intros HZ. unfold repr_schema, obj. rewrite valid_mk by no_dup. cbn [forallb fst snd]. unfold kw.
  cbn [String.eqb Ascii.eqb Bool.eqb existsb assertion_names orb]. rewrite chk_type_str, andb_true_r. apply andb_true_iff. split; [reflexivity|].
  cbn [chk_enum]. apply existsb_exists. exists (jz z). split; [now apply in_map|]. cbn [jeq jz]. unfold num_eqb, num_cmp. cbn. now rewrite ?Z.mul_1_r, ?Z.compare_refl.
Qed.
Lemma safe_repr zs : safe (repr_schema zs).
Proof. unfold repr_schema. apply safe_obj; [exact (fm_null _ _ HFm)|exact tok_fresh|reflexivity|reflexivity|reflexivity]. Qed.

Lemma data_post n deny name Q k D : wf_data ct deny D ->
  (forall s, safe s ->
     (forall v sv j, rsize v < Datatypes.S n -> ser_data text_ok true name D v (parts (values v)) = Some sv -> json_of sv = Some j -> ok_ s j = true) ->
     (forall def fs, D = DStruct def (Struct fs) -> no_enums items fs -> exists m, s = JObj m /\ st n fs deny m) ->
     (forall tg vs, D = DEnum tg vs -> flat_ok n tg vs s) -> post_ n Q (k s)) ->
  post_ n Q (data_prog items deny ct D k).
Proof.
  induction D as [def s|tg vs|zs|from into own IH]; cbn [wf_data data_prog]; intros W HK.
  - eapply style_post; eauto. intros c (C1 & C2 & C3). apply HK; [exact C1| | |discriminate].
    + intros v sv j HL HS HJ. cbn [ser_data] in HS. destruct v as [| | | | | | |l| | | |]; try discriminate. cbn [values] in HS.
      apply (C2 l); [intros x Hx; apply size_seq in Hx; lia|]. apply struct_style_json in HS. congruence.
    + intros def' fs [= <- ->]. exact (C3 fs eq_refl).
  - apply enum_post; [exact W|]. intros c (C1 & C2 & C3). apply HK; [exact C1| |discriminate|intros tg' vs' [= <- <-]; exact C3].
    intros v sv j HL HS HJ. cbn [ser_data] in HS. destruct v as [| | | | | | | | | | |i l]; try discriminate. cbn [values] in HS.
    destruct (nth_error vs i) as [w|] eqn:EN; [|discriminate].
    apply (C2 w l); [eapply nth_error_In; eauto|intros x Hx; apply (size_variant i) in Hx; lia|]. unfold vjson. now rewrite HS.
  - apply HK; [|  |discriminate|discriminate].
    + apply safe_repr.
    + intros v sv j _ HS HJ. cbn [ser_data] in HS. destruct v as [| | | | | | | | | | |i [|]]; try discriminate.
      destruct (nth_error zs i) as [z|] eqn:EN; [|discriminate]. injection HS as <-. cbn in HJ. injection HJ as <-.
      apply repr_ok. eapply nth_error_In; eauto.
  - destruct W as [W1 W2]. assert (HC : converted ct from into = into).
    { unfold converted. destruct ct; [now apply W1|reflexivity]. }
    rewrite HC. destruct into as [t|].
    + cbn [Derivation.post]. intros d HD. apply HK; [apply HD| |discriminate|discriminate].
      intros v sv j HL HS HJ. cbn [ser_data] in HS. destruct v as [| | | | | | |l| | | |]; try discriminate. cbn [values] in HS.
      unfold SoundStruct.parts in HS. destruct l as [|x [|]]; try discriminate. cbn [map snd] in HS.
      apply (p_sound _ _ _ _ _ _ _ HD x sv); [cbn in HL; lia|exact HS|exact HJ].
    + apply IH; [now apply W2|]. intros s H1 H2 H3 H4. apply HK; [exact H1|exact H2|discriminate|discriminate].
Qed.

Lemma enum_doc_meta us ss l : forall m, wf_meta l -> enum_doc us ss m -> exists m', insert_all l (JObj m) = JObj m' /\ enum_doc us ss m'.
Proof.
  induction l as [|[k x] l IH]; intros m W H; [now exists m|]. rewrite insert_all_cons. unfold insert. cbn [fst snd ensure_obj ensure_object]. apply IH.
  - intros k' x' Hin. apply (W k' x'). now right.
  - destruct (W k x (or_introl eq_refl)) as [[A1 A2] _]. destruct H as [H1 H2 H3 H4].
    assert (G : forall c, In c kws \/ In c ctx -> mget c (mset k x m) = mget c m).
    { intros c Hc. rewrite mget_mset. destruct (String.eqb_spec c k) as [->|]; [tauto|reflexivity]. }
    split; auto.
    + now apply sorted_mset.
    + intros c Hc. rewrite G by exact Hc. auto.
    + rewrite !G by (left; in_names). exact H4.
Qed.

Lemma vs_declares i cs ts tg vs k : d_data (it_decl (items i) cs ts) = DEnum tg vs -> vsdeclare tg vs k -> declares items (TAdt i cs ts) k.
Proof.
  intros HD (w & Hw & Hs & Hk). destruct tg as [| |tag|tag content]; cbn [vdeclares] in Hk.
  - subst k. eapply DeclVariant; eauto.
  - destruct Hk.
  - destruct Hk as [->|(fs & f & H1 & H2 & H3 & H4)]; [eapply DeclTag; eauto|eapply DeclVariantField; eauto].
  - eapply DeclAdjacent; eauto.
Qed.

Lemma decl_step n i cs ts : wf_decl ct (it_decl (items i) cs ts) ->
  post_ n (P (Datatypes.S n) (TAdt i cs ts)) (body items (TAdt i cs ts)).
Proof.
  intros [WM WD]. cbn [body Derivation.post]. unfold decl_prog.
  apply data_post with (name := it_name (items i)); [exact WD|]. intros c C1 C2 C3 C4. cbn [Derivation.post].
  split; try discriminate.
  - apply safe_insert_all; auto. apply HFm.
  - intros v sv j HL HS HJ. rewrite valid_insert_all with (tok := tok); auto; [|apply C1].
    apply (C2 v sv j HL); [|exact HJ]. destruct v; cbn [ser] in HS; try discriminate; exact HS.
  - intros i' cs' ts' def' fs [= <- <- <-] ED NE. destruct (C3 _ _ ED NE) as (m & -> & HSt). cbn [pred]. eapply st_meta; eauto.
  - intros i' cs' ts' tg vs [= <- <- <-] ED HFl. destruct (C4 _ _ ED HFl) as (us & ss & m & -> & HDo & HAl). cbn [pred].
    destruct (enum_doc_meta us ss _ m WM HDo) as (m' & HE & HDo'). exists us, ss, m'. split; [exact HE|]. split; [exact HDo'|].
    intros v sv fe es HL HS H1 H2.
    assert (HX : exists i' l w, v = RVariant i' l /\ In w vs /\ flat_json tg w l = Some es).
    { destruct v as [| | | | | | |l| | | |i' l]; cbn [ser] in HS; try discriminate; unfold ser_decl in HS; rewrite ED in HS; cbn [ser_data] in HS; try discriminate.
      destruct (nth_error vs i') as [w|] eqn:EN; [|discriminate]. exists i', l, w. split; [reflexivity|]. split; [eapply nth_error_In; eauto|].
      unfold flat_json. fold (parts l) in HS. now rewrite HS, H1. }
    destruct HX as (i' & l & w & -> & Hw & HJ).
    destruct (HAl w l es Hw) as (A1 & A2 & A3); [intros x Hx; apply (size_variant i') in Hx; lia|exact HJ|].
    assert (DD : forall k, vsdeclare tg vs k -> declares items (TAdt i cs ts) k) by (intros k; now apply vs_declares).
    split; [exact A1|]. split; [intros k Hk; auto|]. intros o ND HO. apply A3; [exact ND|]. intros k Hk. apply HO. auto.
Qed.
End EnumSound.
