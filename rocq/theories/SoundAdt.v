(** Derived implementations: given sound parts, a sound schema. *)
From Coq Require Import String Ascii List ZArith Bool Lia.
From Verif Require Import Json JsonFacts Utf8 SchemaApi Transform Validate ValidateFacts ValidateKw Pointer Private PrivateProps
  PrivateNull PrivateTag ShapeFacts PrivateFlatten PrivateForFlatten PrepareEnum Generate SerValue SerValueProofs Types TypesShape
  Serde SerdeFacts Derivation ValidationAttrs ValidationField Properties_Types SoundBase SoundStruct SoundFlat SoundTypes SoundStd.
Import ListNotations.
Open Scope string_scope.
Open Scope list_scope.

Section AdtSound.
Context {St : Type}.
Variable items : nat -> item rval.
Variable text_ok : checks.
Notation ser_fields := (Serde.ser_fields text_ok).
Notation ser_elements := (Serde.ser_elements text_ok).
Notation ser_one := (Serde.ser_one text_ok).
Notation ser_field := (Serde.ser_field text_ok).
Notation ser_struct := (Serde.ser_struct text_ok).
Notation ser_untagged := (Serde.ser_untagged text_ok).
Variable E : env.
Hypothesis HFm : formats text_ok E.
Hypothesis HDp : decimal_patterns E.
Variable tok : string.
Hypothesis tok_fresh : ~ In tok used.
Notation ok_ := (valid D2020 E).
Notation ser_ := (ser items text_ok true).
Notation safe := (safe E tok).
Notation wf_meta := (wf_meta tok).
Notation wf_fields := (wf_fields items tok).
Notation st := (fun n fs => st items text_ok E tok (own_names fs) n fs).
Notation parts := (parts items text_ok).
Notation fields_json := (fun fs => fields_json items text_ok (own_names fs) fs).
Variable S : settings St.
Notation ct := (s_contract S).
Variable seen : map_t -> Prop.
Notation sound := (sound items text_ok E).
Notation A := (A items text_ok E tok).
Notation P := (P items text_ok E tok).
Notation post := (post (St := St) S seen).
Notation prog := (prog rty St).
Notation post_ n := (post (A n) (P n)).

(** ** What is asked of declarations *)
(** For the contract [c]; [def]: the struct has a default; [deny]: unknown fields are denied, which
    serde does not allow together with a flattened map *)
Definition wf_style (c : contract) (def deny : bool) (s : style rval) : Prop :=
  match s with
  | Unit => True
  | Newtype f => wf_meta (f_meta f) /\ f_flatten f = false
  | Tuple fs => forall f, In f fs -> (wf_meta (f_meta f) /\ f_flatten f = false) /\ (f_skip_ser f = false -> f_skip_if f = None)
      /\ (c = Deserialize -> f_skip_de f = f_skip_ser f)
  | Struct fs => wf_fields c def fs /\ (deny = true -> closed_fields items fs)
  end.

(** The content of an internally tagged variant *)
Definition internal_ok (tag : string) (s : style rval) : Prop :=
  match s with
  | Unit => True
  | Newtype f => f_valid f = no_vattrs /\ exists i cs ts def fs, unwrap (f_ty f) = TAdt i cs ts
      /\ d_data (it_decl (items i) cs ts) = DStruct def (Struct fs) /\ closed_fields items fs /\ ~ declares items (TAdt i cs ts) tag
  | Tuple _ => False
  | Struct fs => closed_fields items fs /\ forall f, In f fs -> f_skip_ser f = false -> ~ field_declares items f tag
  end.

Record wf_variant (c : contract) (deny : bool) (tg : tagging) (v : variant rval) : Prop := {
  wv_name : c = Deserialize -> v_de v = v_ser v;
  wv_meta : wf_meta (v_meta v);
  wv_style : wf_style c false deny (v_style v);
  wv_newtype : forall f, v_style v = Newtype f -> f_skip_ser f = false;
  wv_internal : forall tag, tg = Internal tag -> v_untagged v = false -> internal_ok tag (v_style v) }.

Record wf_enum (c : contract) (deny : bool) (tg : tagging) (vs : list (variant rval)) : Prop := {
  we_some : vs <> [];
  we_written : forall v, In v vs -> c = Deserialize -> v_skip_de v = v_skip_ser v;
  we_variants : forall v, In v vs -> v_skip_ser v = false -> wf_variant c deny tg v;
  we_names : NoDup (map v_ser (filter (fun v => negb (v_skip_ser v)) vs));
  we_tags : forall tag content, tg = Adjacent tag content -> tag <> content }.

(** A type that is converted from another type than into does not accept what it writes. *)
Fixpoint wf_data (c : contract) (deny : bool) (d : data rval) : Prop :=
  match d with
  | DStruct def s => wf_style c def deny s
  | DEnum tg vs => wf_enum c deny tg vs
  | DRepr _ => True
  | DConv from into own => (c = Deserialize -> from = into) /\ (into = None -> wf_data c deny own)
  end.

Record wf_decl (c : contract) (d : decl rval) : Prop := {
  wd_meta : wf_meta (d_meta d);
  wd_data : wf_data c (d_deny d) (d_data d) }.

(** ** Fields *)
Definition field_ok (n : nat) (f : field rval) (s : json) : Prop :=
  safe s /\ forall x v j, rsize x < n -> ser_field true f (x, ser_ x) = Some v -> json_of v = Some j -> ok_ s j = true.

Lemma field_post n f Q k : wf_meta (f_meta f) /\ f_flatten f = false -> (forall s, field_ok n f s -> post_ n Q (k s)) -> post_ n Q (field_schema f k).
Proof.
  intros [W WF] HK. unfold field_schema. destruct (f_required f) eqn:ER; cbn [Derivation.post].
  - intros d HD. apply HK. split; [apply safe_mutators; [apply HFm|exact tok_fresh|exact W|apply HD]|]. intros x v j HL HV HJ.
    apply field_inv in HV as (HP & HV & HM). rewrite ER in HP. cbn [andb fst snd] in HP, HV.
    destruct (present (f_ty f) x) eqn:EP; [|discriminate].
    apply valid_mutators with (tok := tok); [exact W|apply HD|apply HFm, HM; auto|].
    destruct (present_strip items text_ok (f_ty f) x v EP HV) as (v' & sv' & Q1 & Q2 & Q3 & _).
    apply (p_sound _ _ _ _ _ _ _ HD v' sv'); [lia|exact Q2|congruence].
  - intros a HA. pose proof (A_safe _ _ _ _ tok_fresh _ _ _ HA) as HSf. apply HK. split; [apply safe_mutators; auto; apply HFm|]. intros x v j HL HV HJ.
    apply field_inv in HV as (_ & HV & HM). cbn [fst snd] in HV.
    apply valid_mutators with (tok := tok); [exact W|apply HSf|apply HFm, HM; auto|].
    apply (A_sound _ _ _ _ _ _ _ HA x v); auto.
Qed.

Lemma FOP_app {X} (R : X -> X -> Prop) (a b : list X) : ForallOrdPairs R (a ++ b) -> forall x y, In x a -> In y b -> R x y.
Proof.
  intros H x y Hx Hy. induction a as [|z a IH]; [destruct Hx|]. cbn in H. inversion H as [|? ? H1 H2]; subst.
  destruct Hx as [->|Hx]; [|auto]. rewrite Forall_forall in H1. apply H1, in_or_app. now right.
Qed.

Lemma struct_post n deny def Q k : forall fs done m, wf_fields ct def (done ++ fs) -> (deny = true -> closed_fields items (done ++ fs)) -> no_enums items (done ++ fs) ->
  SoundStruct.st items text_ok E tok (own_names (done ++ fs)) n done deny m ->
  (forall m', st n (done ++ fs) deny m' -> post_ n Q (k (JObj m'))) ->
  post_ n Q (struct_fields def ct fs (JObj m) k).
Proof.
  induction fs as [|f fs IH]; intros done m W WD NE H HK; cbn [struct_fields].
  { rewrite app_nil_r in H, HK. now apply HK. }
  assert (EQ : done ++ f :: fs = (done ++ [f]) ++ fs) by now rewrite <- app_assoc.
  assert (HI : In f (done ++ f :: fs)) by (apply in_or_app; right; now left).
  assert (DJ : f_skip_ser f = false -> forall g, In g done -> f_skip_ser g = false ->
     forall c, field_declares items g c -> ~ field_declares items f c).
  { intros HS g Hg HSg. apply (FOP_app _ _ _ (wff_names _ _ _ _ _ W) g f); auto. now left. }
  pose proof (wff_written _ _ _ _ _ W f HI) as AW.
  rewrite (written_included _ _ _ AW), negb_involutive. destruct (f_skip_ser f) eqn:ES.
  { apply IH with (done := done ++ [f]); [now rewrite <- EQ|now rewrite <- EQ|now rewrite <- EQ|rewrite <- EQ; now apply st_skip|now rewrite <- EQ]. }
  specialize (DJ eq_refl). destruct (f_flatten f) eqn:EF.
  - cbn [Derivation.post]. intros d HD.
    assert (OP : forall g, In g done -> f_skip_ser g = false -> f_flatten g = true -> map_field g = false /\ map_field f = false).
    { intros g Hg Hs Hf. apply (FOP_app _ _ _ (wff_open _ _ _ _ _ W) g f); auto. now left. }
    assert (OF : forall g, In g done -> map_field g = true -> f_skip_ser g = false /\ f_flatten g = true).
    { intros g Hg HOp. unfold map_field in HOp. rewrite !andb_true_iff, negb_true_iff in HOp. tauto. }
    assert (CL : no_maps done).
    { intros g Hg. destruct (map_field g) eqn:EO; [|reflexivity]. destruct (OF g Hg EO) as [O1 O2]. destruct (OP g Hg O1 O2). congruence. }
    destruct (wff_flat _ _ _ _ _ W f HI ES EF) as [(v & HT)|([(i & cs & ts & def' & fs' & HT & HDt & CL')|(i & cs & ts & tg & vs & HT & HDt & _)] & HO)].
    + assert (EO : map_field f = true) by (unfold map_field, flat_map_ty; now rewrite ES, EF, HT).
      assert (EDn : deny = false).
      { destruct deny; [|reflexivity]. exfalso. rewrite (closed_no_maps _ _ (WD eq_refl) f HI) in EO. discriminate. }
      destruct (p_map _ _ _ _ _ _ _ HD v) as (dm & -> & HM); [now rewrite HT|]. rewrite EDn in H.
      destruct (st_map items text_ok E tok tok_fresh (own_names (done ++ f :: fs)) n done m f v dm H ES EF CL) as (m' & -> & H'); auto.
      * intros c Hc. destruct (st_names _ _ _ _ _ _ _ _ _ H c Hc) as (g & Hg & Hs & Hk).
        assert (HFg : f_flatten g = false) by (destruct (f_flatten g) eqn:EFg; [destruct (OP g Hg Hs EFg); congruence|reflexivity]).
        inversion Hk; subst; [|congruence]. unfold own_names. apply in_map, filter_In. split; [apply in_or_app; now left|now rewrite Hs, HFg].
      * rewrite <- EDn in H'. apply IH with (done := done ++ [f]); [now rewrite <- EQ|now rewrite <- EQ|now rewrite <- EQ|now rewrite <- EQ|now rewrite <- EQ].
    + destruct (p_struct _ _ _ _ _ _ _ HD i cs ts def' fs') as (dm & -> & HSt); [now rewrite HT|exact HDt|now apply closed_no_enums|].
      apply closed_no_maps in CL'.
      destruct (st_flat items text_ok E tok tok_fresh (own_names (done ++ f :: fs)) n done deny m f i cs ts def' fs' _ dm H ES EF CL CL' HT HDt HSt DJ HO) as (m' & -> & H').
      apply IH with (done := done ++ [f]); [now rewrite <- EQ|now rewrite <- EQ|now rewrite <- EQ|now rewrite <- EQ|now rewrite <- EQ].
    + exfalso. specialize (NE f HI). unfold enum_field, enum_ty in NE. rewrite ES, EF, HT, HDt in NE. discriminate.
  - apply field_post; [split; [apply (wff_meta _ _ _ _ _ W f HI)|first [assumption|congruence]]|]. intros s [HSf HV].
    assert (HRN : In (f_ser f) (own_names (done ++ f :: fs))).
    { unfold own_names. apply in_map, filter_In. split; [exact HI|now rewrite ES, EF]. }
    destruct (st_field items text_ok E tok tok_fresh (own_names (done ++ f :: fs)) n done deny m f (is_optional def ct f) (insert_default def f s) H ES EF HRN DJ)
      as (m' & HE & H').
    + intros HN. now apply written_missing.
    + intros x v j HL HX HJ. rewrite valid_default; [|apply HSf]. eapply HV; eauto.
    + rewrite (written_name _ _ _ AW), HE. apply IH with (done := done ++ [f]); [now rewrite <- EQ|now rewrite <- EQ|now rewrite <- EQ|now rewrite <- EQ|now rewrite <- EQ].
Qed.

Lemma struct_prog_post n deny def fs Q k : wf_fields ct def fs -> (deny = true -> closed_fields items fs) -> no_enums items fs ->
  (forall m, st n fs deny m -> post_ n Q (k (JObj m))) -> post_ n Q (struct_prog def deny ct fs k).
Proof.
  intros W WD NE HK. unfold struct_prog. destruct (st_start items text_ok E tok tok_fresh (own_names fs) n deny) as (m & -> & H).
  now apply (struct_post n deny def Q k fs [] m).
Qed.

(** With a flattened enum among the fields *)
Lemma struct_post_e n def Q k : forall fs done m, wf_fields ct def (done ++ fs) -> no_maps (done ++ fs) ->
  ste items text_ok E tok (own_names (done ++ fs)) n done m ->
  (forall m', ste items text_ok E tok (own_names (done ++ fs)) n (done ++ fs) m' -> post_ n Q (k (JObj m'))) ->
  post_ n Q (struct_fields def ct fs (JObj m) k).
Proof.
  induction fs as [|f fs IH]; intros done m W NM H HK; cbn [struct_fields].
  { rewrite app_nil_r in H, HK. now apply HK. }
  assert (EQ : done ++ f :: fs = (done ++ [f]) ++ fs) by now rewrite <- app_assoc.
  assert (HI : In f (done ++ f :: fs)) by (apply in_or_app; right; now left).
  assert (DJ : f_skip_ser f = false -> forall g, In g done -> f_skip_ser g = false ->
     forall c, field_declares items g c -> ~ field_declares items f c).
  { intros HS g Hg HSg. apply (FOP_app _ _ _ (wff_names _ _ _ _ _ W) g f); auto. now left. }
  pose proof (wff_written _ _ _ _ _ W f HI) as AW.
  rewrite (written_included _ _ _ AW), negb_involutive. destruct (f_skip_ser f) eqn:ES.
  { apply IH with (done := done ++ [f]); [now rewrite <- EQ|now rewrite <- EQ|rewrite <- EQ; now apply ste_skip|now rewrite <- EQ]. }
  specialize (DJ eq_refl). destruct (f_flatten f) eqn:EF.
  - cbn [Derivation.post]. intros d HD.
    destruct (wff_flat _ _ _ _ _ W f HI ES EF) as [(v & HT)|(HFl & HO)].
    { exfalso. specialize (NM f HI). unfold map_field, flat_map_ty in NM. rewrite ES, EF, HT in NM. discriminate. }
    assert (HX : exists d', for_flatten d (is_option (f_ty f) && negb (f_required f)) = JObj d'
      /\ flat_like items text_ok E tok (pred n) (strip_option (f_ty f)) (is_option (f_ty f) && negb (f_required f)) d').
    { destruct HFl as [(i & cs & ts & def' & fs' & HT & HDt & CL')|(i & cs & ts & tg & vs & HT & HDt & HE)].
      - destruct (p_struct _ _ _ _ _ _ _ HD i cs ts def' fs') as (dm & -> & HSt); [now rewrite HT|exact HDt|now apply closed_no_enums|].
        rewrite HT. eapply flat_struct; eauto. now apply closed_no_maps in CL'.
      - destruct (p_enum _ _ _ _ _ _ _ HD i cs ts tg vs) as (us & ss & dm & -> & D1 & D2); [now rewrite HT|exact HDt|exact HE|].
        rewrite HT. eapply flat_enum_doc; eauto. apply (sf_room _ _ _ (p_safe _ _ _ _ _ _ _ HD)). }
    destruct HX as (d' & -> & HL).
    destruct (ste_flat items text_ok E tok tok_fresh (own_names (done ++ f :: fs)) n done m f d' H ES EF DJ HO HL) as (m' & -> & H').
    apply IH with (done := done ++ [f]); [now rewrite <- EQ|now rewrite <- EQ|now rewrite <- EQ|now rewrite <- EQ].
  - apply field_post; [split; [apply (wff_meta _ _ _ _ _ W f HI)|first [assumption|congruence]]|]. intros s [HSf HV].
    destruct (ste_field items text_ok E tok tok_fresh (own_names (done ++ f :: fs)) n done m f (is_optional def ct f) (insert_default def f s) H ES EF DJ)
      as (m' & HE & H').
    + intros HN. now apply written_missing.
    + intros x v j HL HX HJ. rewrite valid_default; [|apply HSf]. eapply HV; eauto.
    + rewrite (written_name _ _ _ AW), HE. apply IH with (done := done ++ [f]); [now rewrite <- EQ|now rewrite <- EQ|now rewrite <- EQ|now rewrite <- EQ].
Qed.

Lemma struct_prog_post_e n def fs Q k : wf_fields ct def fs -> no_maps fs ->
  (forall m, ste items text_ok E tok (own_names fs) n fs m -> post_ n Q (k (JObj m))) -> post_ n Q (struct_prog def false ct fs k).
Proof.
  intros W NM HK. unfold struct_prog. cbn [app obj mk mappend fold_left mset].
  apply (struct_post_e n def Q k fs []); auto. now apply ste_start.
Qed.

(** ** Tuples *)
Definition elements_json (fs : list (field rval)) (l : list rval) : option (list json) :=
  match ser_elements true fs (parts l) with Some vs => omap json_of vs | None => None end.

Lemma tuple_fields_post n Q fs : forall k,
  (forall f, In f fs -> (wf_meta (f_meta f) /\ f_flatten f = false) /\ (f_skip_ser f = false -> f_skip_if f = None)
    /\ (ct = Deserialize -> f_skip_de f = f_skip_ser f)) ->
  (forall ss, (forall l js, (forall x, In x l -> rsize x < n) -> elements_json fs l = Some js -> pairwise E ss js = true) ->
     post_ n Q (k ss)) ->
  post_ n Q (tuple_fields ct fs k).
Proof.
  induction fs as [|f fs IH]; intros k W HK; cbn [tuple_fields].
  - apply HK. intros l js _ HJ. destruct l; [|discriminate]. injection HJ as <-. reflexivity.
  - destruct (W f (or_introl eq_refl)) as (WM & WS & WD). assert (W' := fun g Hg => W g (or_intror Hg)).
    replace (included (f_skip_de f) (f_skip_ser f) ct) with (negb (f_skip_ser f)) by (destruct ct; cbn; [now rewrite WD|reflexivity]).
    destruct (f_skip_ser f) eqn:ES; cbn [negb].
    + apply IH; [exact W'|]. intros ss HP. apply HK. intros l js HL HJ. destruct l as [|x l]; [discriminate|].
      unfold elements_json in HJ. cbn [parts SoundStruct.parts map Serde.ser_elements] in HJ. fold (parts l) in HJ.
      destruct (ser_elements true fs (parts l)) as [vs|] eqn:EV; [|discriminate]. rewrite ES in HJ. cbn [orb] in HJ.
      apply (HP l js); [intros y Hy; apply HL; now right|]. unfold elements_json. now rewrite EV.
    + apply field_post; [exact WM|]. intros s [_ HV]. apply IH; [exact W'|]. intros ss HP. apply HK. intros l js HL HJ.
      destruct l as [|x l]; [discriminate|].
      unfold elements_json in HJ. cbn [parts SoundStruct.parts map Serde.ser_elements] in HJ. fold (parts l) in HJ.
      destruct (ser_elements true fs (parts l)) as [vs|] eqn:EV; [|discriminate].
      rewrite ES in HJ. unfold skip_now in HJ. rewrite (WS eq_refl) in HJ. cbn [orb] in HJ.
      destruct (ser_field true f (x, ser_ x)) as [v|] eqn:EX; [|discriminate]. cbn [option_map] in HJ. cbn in HJ. fold (omap json_of) in HJ.
      destruct (json_of v) as [j|] eqn:EJ; [|discriminate]. destruct (omap json_of vs) as [js'|] eqn:EO; [|discriminate]. injection HJ as <-.
      specialize (HP l js' (fun y Hy => HL y (or_intror Hy))). unfold elements_json in HP. rewrite EV in HP. specialize (HP EO).
      unfold pairwise in *. apply andb_prop in HP as [P1 P2]. cbn [List.length Nat.eqb combine forallb fst snd]. rewrite P1, P2.
      rewrite (HV x v j); auto. apply HL. now left.
Qed.

Lemma safe_tuple_struct ss : safe (tuple_struct_schema ss).
Proof.
  unfold tuple_struct_schema. set (len := jz _). clearbody len.
  assert (U : In "maxItems" used /\ In "minItems" used /\ In "prefixItems" used) by (repeat split; in_names). destruct U as (U1 & U2 & U3).
  set (m := match ss with [] => mk [("type", JStr "array")] | _ => _ end).
  assert (HG : forall c, c <> "minItems" -> c <> "prefixItems" -> mget c m = mget c (mk [("type", JStr "array")])).
  { intros c C1 C2. apply String.eqb_neq in C1, C2. unfold m. destruct ss; [reflexivity|]. rewrite !mget_mset, C1, C2. reflexivity. }
  clearbody m.
  apply safe_plain; [exact (fm_null _ _ HFm)| | | | |].
  - apply imm_false. intros c Hc. rewrite mget_mset. cbn in Hc.
    repeat (destruct Hc as [<-|Hc]; [cbn [String.eqb Ascii.eqb Bool.eqb]; rewrite HG by discriminate; reflexivity|]). destruct Hc.
  - rewrite mget_mset. cbn [String.eqb Ascii.eqb Bool.eqb]. rewrite HG by discriminate. reflexivity.
  - rewrite mget_mset. cbn [String.eqb Ascii.eqb Bool.eqb]. rewrite HG by discriminate. reflexivity.
  - unfold has_type, s_get. rewrite mget_mset. cbn [String.eqb Ascii.eqb Bool.eqb]. rewrite HG by discriminate. reflexivity.
  - apply fresh_mset; [exact tok_fresh|exact U1|]. rewrite HG by (intros HT; apply tok_fresh; rewrite HT; assumption).
    now apply (fresh_mk tok tok_fresh [("type", JStr "array")]).
Qed.

(** ** The four styles *)
(** The JSON of the fields of a struct or variant, without name or tag *)
Definition style_json (s : style rval) (l : list rval) : option json :=
  match s with
  | Unit => Some JNull
  | Newtype f => match ser_one true f (parts l) with Some v => json_of v | None => None end
  | Tuple fs => option_map JArr (elements_json fs l)
  | Struct fs => option_map (fun es => JObj (mk es)) (fields_json fs l)
  end.

Definition style_ok (n : nat) (s : style rval) (deny : bool) (c : json) : Prop :=
  safe c /\ (forall l j, (forall x, In x l -> rsize x < n) -> style_json s l = Some j -> ok_ c j = true)
  /\ (forall fs, s = Struct fs -> no_enums items fs -> exists m, c = JObj m /\ st n fs deny m).

Lemma style_post n deny def s Q k : wf_style ct def deny s -> (forall c, style_ok n s deny c -> post_ n Q (k c)) ->
  post_ n Q (style_prog def deny ct s k).
Proof.
  intros W HK. destruct s as [|f|fs|fs]; cbn [style_prog].
  - unfold unit_prog. cbn [Derivation.post]. intros a HA. rewrite (A_unit _ _ _ _ _ _ HA). apply HK.
    split; [now apply safe_null_schema|]. split; [|discriminate]. intros l j _ [= <-]. now rewrite valid_type_schema.
  - apply field_post; [exact W|]. intros c [HSf HV]. apply HK. split; [exact HSf|]. split; [|discriminate].
    intros l j HL HJ. cbn [style_json] in HJ. unfold Serde.ser_one in HJ. destruct l as [|x [|]]; try discriminate. cbn [parts SoundStruct.parts map] in HJ.
    destruct (ser_field true f (x, ser_ x)) as [v|] eqn:EV; [|discriminate]. apply (HV x v j); auto. apply HL. now left.
  - apply tuple_fields_post; [exact W|]. intros ss HP. apply HK. split; [apply safe_tuple_struct|]. split; [|discriminate].
    intros l j HL HJ. cbn [style_json] in HJ. destruct (elements_json fs l) as [js|] eqn:EJ; [|discriminate]. injection HJ as <-.
    rewrite valid_tuple_struct. eauto.
  - destruct W as [W WD]. destruct (existsb (enum_field items) fs) eqn:EE.
    { apply existsb_exists in EE as (g & Hg & EE).
      assert (NM : no_maps fs).
      { intros f Hf. destruct (map_field f) eqn:EM; [|reflexivity]. exfalso.
        assert (HFG : f <> g). { intros ->. unfold map_field, enum_field, flat_map_ty in *. destruct (strip_option (f_ty g)); try discriminate; rewrite andb_false_r in *; discriminate. }
        assert (MF : f_skip_ser f = false /\ f_flatten f = true) by (unfold map_field in EM; rewrite !andb_true_iff, negb_true_iff in EM; tauto).
        assert (MG : f_skip_ser g = false /\ f_flatten g = true) by (unfold enum_field in EE; rewrite !andb_true_iff, negb_true_iff in EE; tauto).
        destruct MF as [M1 M2], MG as [M3 M4].
        destruct (ForallOrdPairs_In (wff_open _ _ _ _ _ W) _ _ Hf Hg) as [HH|[HH|HH]]; [contradiction| |]; destruct HH; congruence. }
      assert (HDn : deny = false).
      { destruct deny; [|reflexivity]. exfalso. rewrite (closed_no_enums _ _ (WD eq_refl) g Hg) in EE. discriminate. }
      rewrite HDn. apply struct_prog_post_e; [exact W|exact NM|]. intros m H. apply HK. split; [eapply ste_safe; eauto; apply HFm|].
      split; [|intros fs' [= <-] NE; rewrite (NE g Hg) in EE; discriminate]. intros l j HL HJ. cbn [style_json] in HJ.
      destruct (fields_json fs l) as [es|] eqn:EJ; [|discriminate]. injection HJ as <-. eapply ste_valid; eauto. }
    assert (NE : no_enums items fs).
    { intros f Hf. destruct (enum_field items f) eqn:EF; [|reflexivity]. rewrite <- EE. symmetry. apply existsb_exists. eauto. }
    apply struct_prog_post; [exact W|exact WD|exact NE|]. intros m H. apply HK. split; [eapply st_safe; eauto; apply HFm|].
    split; [|intros fs' [= <-]; eauto]. intros l j HL HJ. cbn [style_json] in HJ.
    destruct (fields_json fs l) as [es|] eqn:EJ; [|discriminate]. injection HJ as <-.
    eapply st_valid; eauto. eapply st_fits; eauto.
Qed.

Lemma struct_style_json name s l sv : ser_struct true name s (parts l) = Some sv -> json_of sv = style_json s l.
Proof.
  destruct s as [|f|fs|fs]; cbn [Serde.ser_struct style_json].
  - destruct (parts l); [|discriminate]. now intros [= <-].
  - destruct (ser_one true f (parts l)); [|discriminate]. now intros [= <-].
  - unfold elements_json. destruct (ser_elements true fs (parts l)) as [vs|]; [|discriminate]. now intros [= <-].
  - unfold SoundStruct.fields_json. destruct (ser_fields true (own_names fs) fs (parts l)) as [fe|]; [|discriminate]. intros [= <-]. apply json_struct_value.
Qed.

Lemma untagged_style_json s l sv : (forall f, s = Newtype f -> f_skip_ser f = false) -> ser_untagged true s (parts l) = Some sv ->
  json_of sv = style_json s l.
Proof.
  intros HN. unfold Serde.ser_untagged. destruct s as [|f|fs|fs]; cbn [effective_style style_json].
  - now intros [= <-].
  - rewrite (HN f eq_refl). destruct (ser_one true f (parts l)); [|discriminate]. now intros [= <-].
  - unfold elements_json. destruct (ser_elements true fs (parts l)) as [vs|]; [|discriminate]. now intros [= <-].
  - unfold SoundStruct.fields_json. destruct (ser_fields true (own_names fs) fs (parts l)) as [fe|]; [|discriminate]. intros [= <-]. apply json_struct_value.
Qed.
End AdtSound.
