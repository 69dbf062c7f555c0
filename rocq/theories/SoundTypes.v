(** The schemas of the standard types accept the JSON of the types' values, given that the schemas
    of their parts do. *)
From Coq Require Import String Ascii List ZArith Bool Lia.
From Verif Require Import Json JsonFacts Utf8 SchemaApi Transform Validate ValidateFacts ValidateKw Pointer Private PrivateProps
  PrivateNull PrivateTag ShapeFacts PrivateFlatten PrivateForFlatten PrepareEnum Generate SerValue SerValueProofs Types TypesShape
  Serde SerdeFacts Derivation ValidationAttrs ValidationProofs Properties_Types SoundBase SoundStruct SoundFlat.
Import ListNotations.
Open Scope string_scope.
Open Scope list_scope.

(** Formats are either not checked or checked as the types mean them, and the texts of versions and
    decimal numbers match the patterns of these types. *)
Record formats (text_ok : checks) (E : env) : Prop := {
  fm_null : forall f, e_fmt E f JNull = true;
  fm_int : forall i z, in_range i z = true -> e_fmt E (int_format i) (JNum (NInt z)) = true;
  fm_float : forall m e, e_fmt E "float" (JNum (NFlt m e)) = true /\ e_fmt E "double" (JNum (NFlt m e)) = true;
  fm_text : forall k s, text_ok k s = true ->
    match k with
    | SemVer => e_rx E semver_pattern s = true
    | Decimal => forall c, e_rx E (decimal_pattern c) s = true
    | _ => e_fmt E (text_format k) (JStr s) = true
    end;
  fm_meets : forall a j, meets text_ok a j = true -> satisfies E a j = true }.

Section TypesSound.
Context {St : Type}.
Variable items : nat -> item rval.
Variable text_ok : checks.
Notation ser_fields := (Serde.ser_fields text_ok).
Notation ser_struct := (Serde.ser_struct text_ok).
Variable E : env.
Hypothesis HFm : formats text_ok E.
Hypothesis HDp : decimal_patterns E.
Variable tok : string.
Hypothesis tok_fresh : ~ In tok used.
Notation ok_ := (valid D2020 E).
Notation ser_ := (ser items text_ok true).
Notation safe := (safe E tok).
Notation wf_meta := (wf_meta tok).
Notation st := (fun n fs => st items text_ok E tok (own_names fs) n fs).
Notation parts := (parts items text_ok).

Variable S : settings St.
Variable seen : map_t -> Prop.
(** What a reference accepts, the definition it leads to accepts. *)
Hypothesis seen_defs : forall defs r n d v, seen defs ->
  strip_prefix (String "#" (definitions_path_stripped (s_path S) ++ "/")%string) r = Some n ->
  mget n defs = Some (JObj d) -> ok_ (new_ref r) v = true -> ok_ (JObj d) v = true.

(** ** Soundness up to a size of values *)
Definition sound (n : nat) (t : rty) (s : json) : Prop :=
  forall v sv j, rsize v < n -> ser_ v t = Some sv -> json_of sv = Some j -> ok_ s j = true.

Fixpoint unwrap (t : rty) : rty := match t with TFwd t | TWeak t => unwrap t | _ => t end.

(** A struct that allows unknown fields and in which [tag] is not the name of a field *)
Definition plain_open (t : rty) (tag : string) : Prop :=
  exists i cs ts def fs, unwrap t = TAdt i cs ts /\ d_data (it_decl (items i) cs ts) = DStruct def (Struct fs)
    /\ closed_fields items fs /\ d_deny (it_decl (items i) cs ts) = false /\ ~ declares items (TAdt i cs ts) tag.

(** Its schema also accepts its values with an entry for [tag] added. *)
Definition opens (n : nat) (t : rty) (s : json) : Prop :=
  forall tag x v sv m, plain_open t tag -> rsize v < n -> ser_ v t = Some sv -> json_of sv = Some (JObj m) ->
    ok_ s (JObj (mset tag x m)) = true.

Record P (n : nat) (t : rty) (s : json) : Prop := {
  p_safe : safe s;
  p_sound : sound n t s;
  p_int : forall i, t = TInt i -> s = int_schema i;
  p_unit : t = TUnit -> s = type_schema "null";
  p_str : t = TStr -> s = type_schema "string";
  p_map : forall v, unwrap t = TMap TStr v -> exists m, s = JObj m /\ map_like items text_ok E tok (pred n) v m;
  p_struct : forall i cs ts def fs, unwrap t = TAdt i cs ts -> d_data (it_decl (items i) cs ts) = DStruct def (Struct fs) ->
     no_enums items fs -> exists m, s = JObj m /\ st (pred n) fs (d_deny (it_decl (items i) cs ts)) m;
  p_enum : forall i cs ts tg vs, unwrap t = TAdt i cs ts -> d_data (it_decl (items i) cs ts) = DEnum tg vs -> flat_enum items tg vs ->
     exists us ss m, s = JObj m /\ enum_doc us ss m /\ enum_alts items text_ok E (pred n) (TAdt i cs ts) us ss }.

(** What [subschema_for] may answer: a schema of the type, or a reference to one *)
Definition A (n : nat) (t : rty) (a : json) : Prop :=
  P n t a \/ exists r, a = new_ref r /\ sound n t a /\ opens n t a /\ t <> TUnit /\ t <> TStr.

Lemma P_A n t s : P n t s -> A n t s.
Proof. now left. Qed.
Lemma A_safe n t a : A n t a -> safe a.
Proof. intros [H|(r & -> & _)]; [apply H|now apply safe_ref]. Qed.
Lemma A_sound n t a : A n t a -> sound n t a.
Proof. intros [H|(r & -> & H & _)]; [apply H|exact H]. Qed.
Lemma A_unit n a : A n TUnit a -> a = type_schema "null".
Proof. intros [H|(r & _ & _ & _ & H & _)]; [now apply (p_unit _ _ _ H)|congruence]. Qed.
Lemma A_str n a : A n TStr a -> a = type_schema "string".
Proof. intros [H|(r & _ & _ & _ & _ & H)]; [now apply (p_str _ _ _ H)|congruence]. Qed.

Lemma P_zero t s : P 1 t s -> P 0 t s.
Proof.
  intros [H1 H2 H3 H4 H5 H6 H7 H8]. split; auto. intros v sv j HL. lia.
Qed.

(** The values of a struct behind pointers *)
Lemma unwrap_ser t : forall v sv, ser_ v t = Some sv -> exists sv', ser_ v (unwrap t) = Some sv' /\ json_of sv' = json_of sv.
Proof.
  induction t; intros v sv HS; try (exists sv; split; [exact HS|reflexivity]).
  - rewrite ser_fwd in HS. exact (IHt v sv HS).
  - rewrite ser_weak in HS.
    assert (HE : exists x, ser_ v t = Some x /\ sv = VSome x).
    { destruct v; try discriminate; destruct (ser_ _ t) as [x|] eqn:EX; try discriminate; injection HS as <-; eauto. }
    destruct HE as (x & HX & ->). exact (IHt v x HX).
Qed.

Lemma mk_cons k (x : json) es : ~ In k (map fst es) -> NoDup (map fst es) -> mk ((k, x) :: es) = mset k x (mk es).
Proof.
  intros HN ND. apply sorted_ext; [apply sorted_mk|apply sorted_mset, sorted_mk|]. intros c. rewrite mget_mset, !mget_mk_NoDup; auto.
  constructor; auto.
Qed.

Lemma open_valid m tag x es : object_shape m -> mget "additionalProperties" m = None ->
  fits E (props_of m) (required_of m) es -> mget tag (props_of m) = None ->
  ok_ (JObj m) (JObj (mset tag x (mk es))) = true.
Proof.
  intros HS HA F HT. pose proof F as [F1 F2 F3 F4].
  rewrite <- mk_cons; [|intros HI; now apply (F2 _ HI)|exact F1].
  assert (ND : NoDup (map fst ((tag, x) :: es))) by (constructor; [intros HI; now apply (F2 _ HI)|exact F1]).
  assert (HG : forall k, mget k (mk ((tag, x) :: es)) = mget k ((tag, x) :: es)) by (intros k; now apply mget_mk_NoDup).
  rewrite valid_shape by exact HS. rewrite !andb_true_iff. repeat split.
  - cbn [props_ok]. apply forallb_forall. intros [k y] Hin. cbn [fst snd].
    destruct (mget k (props_of m)) as [s|] eqn:EP; [|reflexivity]. apply (F3 k s y EP).
    apply (NoDup_mget _ _ _ (sorted_NoDup _ (sorted_mk _))) in Hin. rewrite HG in Hin. cbn [mget] in Hin.
    destruct (String.eqb_spec k tag) as [->|]; [congruence|exact Hin].
  - cbn [required_ok]. apply forallb_forall. intros [| | |k| |] Hin; try reflexivity. unfold mhas. rewrite HG. cbn [mget].
    specialize (F4 k Hin). destruct (String.eqb k tag); [reflexivity|]. now destruct (mget k es).
  - unfold additional_ok. now rewrite HA.
Qed.

Lemma struct_json i cs ts def fs v sv : ser_ v (TAdt i cs ts) = Some sv -> d_data (it_decl (items i) cs ts) = DStruct def (Struct fs) ->
  exists l, v = RSeq l /\ json_of sv = option_map (fun es => JObj (mk es)) (fields_json items text_ok (own_names fs) fs l).
Proof.
  intros HS HD. destruct (ser_adt _ _ _ _ _ _ _ _ _ HS HD) as (l & -> & H). exists l. split; [reflexivity|].
  cbn [Serde.ser_struct] in H. unfold fields_json. destruct (ser_fields true (own_names fs) fs (parts l)) as [fe|]; [|discriminate]. injection H as <-.
  apply json_struct_value.
Qed.

Lemma P_opens n t s : P n t s -> opens n t s.
Proof.
  intros H tag x v sv m (i & cs & ts & def & fs & HU & HD & HCl & HDe & HN) HL HS HJ.
  destruct (p_struct _ _ _ H _ _ _ _ _ HU HD (closed_no_enums _ _ HCl)) as (sm & -> & HSt). apply closed_no_maps in HCl.
  destruct (unwrap_ser _ _ _ HS) as (sv' & HS' & HJ'). rewrite HU in HS'.
  destruct (struct_json _ _ _ _ _ _ _ HS' HD) as (l & -> & HF). rewrite HJ', HJ in HF.
  destruct (fields_json items text_ok (own_names fs) fs l) as [es|] eqn:EF; [|discriminate]. injection HF as ->.
  rewrite HDe in HSt. apply open_valid; [apply HSt|exact (st_closed _ _ _ _ _ _ _ _ _ HSt HCl)| |].
  - apply (st_fits_closed _ _ _ _ _ _ _ _ _ l es HSt HCl); [|exact EF]. intros y Hy. apply size_seq in Hy. lia.
  - destruct (mget tag (props_of sm)) eqn:EP; [|reflexivity]. exfalso. apply HN.
    destruct (st_names _ _ _ _ _ _ _ _ _ HSt tag) as (f & Hf & Hs & Hd); [congruence|]. econstructor; eauto.
Qed.
Lemma A_opens n t a : A n t a -> opens n t a.
Proof. intros [H|(r & -> & _ & H & _)]; [now apply P_opens|exact H]. Qed.

Notation post := (post (St := St) S seen).
Notation prog := (prog rty St).

(** A type that is neither an integer, a string, the unit type, a map nor a struct *)
Lemma P_other n t s : safe s -> sound n t s ->
  match t with TInt _ | TStr | TUnit | TMap _ _ | TAdt _ _ _ | TFwd _ | TWeak _ => False | _ => True end -> P n t s.
Proof.
  intros H1 H2 H3. split; auto.
  - intros; subst; contradiction.
  - intros; subst; contradiction.
  - intros; subst; contradiction.
  - intros v HU. destruct t; try discriminate; contradiction.
  - intros i cs ts def fs HU. destruct t; try discriminate; contradiction.
  - intros i cs ts tg vs HU. destruct t; try discriminate; contradiction.
Qed.

(** ** Leaves *)
Lemma int_sound i n : sound n (TInt i) (int_schema i).
Proof.
  intros v sv j _ HS HJ. destruct v; cbn in HS; try discriminate. unfold check in HS.
  destruct (in_range i z) eqn:EI; [|discriminate]. injection HS as <-. injection HJ as <-.
  rewrite valid_int, (fm_int _ _ HFm i z EI). unfold in_range in EI. apply andb_prop in EI as [I1 I2].
  apply Z.leb_le in I1, I2. destruct i; cbn [num_integral andb lower upper above below int_range fst snd] in *;
    rewrite ?num_leb_int, ?andb_true_iff, ?Z.leb_le; repeat split; cbn in I1, I2; lia.
Qed.

Lemma nonzero_sound i n : sound n (TNonZero i) (nonzero_schema i).
Proof.
  intros v sv j _ HS HJ. destruct v; cbn in HS; try discriminate. unfold check in HS.
  destruct (in_range i z && negb (z =? 0)%Z) eqn:EI; [|discriminate]. injection HS as <-. injection HJ as <-.
  apply andb_prop in EI as [EI EZ]. apply negb_true_iff, Z.eqb_neq in EZ.
  rewrite valid_nonzero, (fm_int _ _ HFm i z EI). unfold in_range in EI. apply andb_prop in EI as [I1 I2].
  apply Z.leb_le in I1, I2.
  destruct i; cbn [num_integral andb lower upper above below int_range fst snd is_signed negb orb] in *;
    unfold num_eqb, num_cmp; cbn [num_me]; rewrite ?num_leb_int, ?andb_true_iff, ?Z.leb_le;
    repeat split; cbn in I1, I2; try lia;
    rewrite Z.min_id, Z.sub_diag; cbn [Z.pow]; rewrite !Z.mul_1_r; destruct (Z.compare_spec z 0); auto; lia.
Qed.

Ltac safe_lit := apply safe_obj; [exact (fm_null _ _ HFm)|exact tok_fresh|reflexivity|reflexivity|reflexivity].

Lemma safe_int i : safe (int_schema i).
Proof. unfold int_schema. destruct i; safe_lit. Qed.

Lemma safe_nonzero i : safe (nonzero_schema i).
Proof.
  unfold nonzero_schema. destruct (is_signed i) eqn:ES.
  - set (m := ensure_obj (int_schema i)).
    assert (HG : forall k, mget k m = mget k (int_entries i)).
    { intros k. unfold m, int_schema, obj. cbn [ensure_obj ensure_object]. apply mget_mk_NoDup.
      destruct i; repeat (constructor; [intros HH; cbn in HH; repeat (destruct HH as [HH|HH]; [discriminate|]); exact HH|]); constructor. }
    change (insert "not" (obj [("const", jz 0)]) (int_schema i)) with (JObj (mset "not" (obj [("const", jz 0)]) m)).
    split; try discriminate; auto.
    + unfold has_type, s_get. rewrite mget_mset, HG. cbn [String.eqb Ascii.eqb Bool.eqb]. discriminate.
    + intros a [= HE]. assert (HM : mget "type" (mset "not" (obj [("const", jz 0)]) m) = Some (JStr "integer")).
      { rewrite mget_mset, HG. reflexivity. }
      rewrite HE in HM. discriminate.
    + intros m' [= <-] _. rewrite !mget_mset, !HG. cbn [String.eqb Ascii.eqb Bool.eqb].
      assert (HC : mget "const" (int_entries i) = None) by (destruct i; try discriminate ES; reflexivity). rewrite HC.
      repeat split; try congruence.
      rewrite (valid_lookup E _ (mset "not" (obj [("const", jz 0)]) (other_keywords m))).
      2:{ intros k. unfold other_keywords. rewrite !mget_mdel, !mget_mset, !mget_mdel.
          destruct (String.eqb_spec k "const") as [->|]; [reflexivity|]. destruct (String.eqb_spec k "enum") as [->|]; [reflexivity|].
          destruct (String.eqb_spec k "type") as [->|]; reflexivity. }
      rewrite valid_set by (intros HH; cbn in HH; repeat (destruct HH as [HH|HH]; [discriminate|]); exact HH).
      apply andb_true_intro. split; [reflexivity|].
      rewrite (valid_lookup E _ (other_keywords m)).
      * apply other_accepts_null; [exact (fm_null _ _ HFm)| |].
        -- apply imm_false. intros k Hk. rewrite HG. cbn in Hk.
           repeat (destruct Hk as [<-|Hk]; [destruct i; try discriminate ES; reflexivity|]). destruct Hk.
        -- rewrite HG. destruct i; try discriminate ES; reflexivity.
      * intros k. rewrite mget_mdel. destruct (String.eqb_spec k "not") as [->|]; [|reflexivity].
        unfold other_keywords. rewrite !mget_mdel. cbn [String.eqb Ascii.eqb Bool.eqb]. rewrite HG.
        destruct i; try discriminate ES; reflexivity.
    + cbn [s_get]. apply fresh_mset; [exact tok_fresh|in_names|]. apply (sf_room _ _ _ (safe_int i)).
  - set (m := ensure_obj (int_schema i)).
    assert (HG : forall k, mget k m = mget k (int_entries i)).
    { intros k. unfold m, int_schema, obj. cbn [ensure_obj ensure_object]. apply mget_mk_NoDup.
      destruct i; repeat (constructor; [intros HH; cbn in HH; repeat (destruct HH as [HH|HH]; [discriminate|]); exact HH|]); constructor. }
    change (insert "minimum" (jz 1) (int_schema i)) with (JObj (mset "minimum" (jz 1) m)).
    apply safe_plain; [exact (fm_null _ _ HFm)| | | | |].
    + apply imm_false. intros c Hc. rewrite mget_mset, HG. cbn in Hc.
      repeat (destruct Hc as [<-|Hc]; [destruct i; try discriminate ES; reflexivity|]). destruct Hc.
    + rewrite mget_mset, HG. destruct i; try discriminate ES; reflexivity.
    + rewrite mget_mset, HG. destruct i; try discriminate ES; reflexivity.
    + unfold has_type, s_get. rewrite mget_mset, HG. destruct i; try discriminate ES; reflexivity.
    + apply fresh_mset; [exact tok_fresh|in_names|]. apply (sf_room _ _ _ (safe_int i)).
Qed.

(** ** Objects with given properties, all required *)
Lemma required_props_accept ps es :
  NoDup (map fst ps) -> Forall2 (fun p e => fst p = fst e /\ ok_ (snd p) (snd e) = true) ps es ->
  ok_ (required_props ps) (JObj (mk es)) = true.
Proof.
  intros ND HF. rewrite valid_required_props.
  assert (HK : map fst es = map fst ps).
  { clear ND. induction HF as [|p e ps es [H _] HF IH]; [reflexivity|]. cbn. congruence. }
  assert (ND' : NoDup (map fst es)) by now rewrite HK.
  apply andb_true_intro. split.
  - apply forallb_forall. intros [k s] Hin. unfold mhas. cbn [fst]. rewrite mget_mk_NoDup by exact ND'.
    assert (HI : mget k es <> None). { apply mhas_In. rewrite HK. apply in_map_iff. now exists (k, s). }
    now destruct (mget k es).
  - cbn [props_ok]. apply forallb_forall. intros [k x] Hin. cbn [fst snd]. rewrite mget_mk_NoDup by exact ND.
    destruct (mget k ps) as [s|] eqn:EP; [|reflexivity].
    apply (NoDup_mget _ _ _ (sorted_NoDup _ (sorted_mk _))) in Hin. rewrite mget_mk_NoDup in Hin by exact ND'.
    clear -HF EP Hin. revert EP Hin. induction HF as [|[k1 s1] [k2 x2] ps es [H1 H2] HF IH]; [discriminate|]. cbn in *. subst k2.
    destruct (String.eqb k k1); [|exact IH]. intros [= <-] [= <-]. exact H2.
Qed.

Lemma required_props_reject ps o k s : In (k, s) ps -> mget k o = None -> ok_ (required_props ps) (JObj o) = false.
Proof.
  intros Hin HN. rewrite valid_required_props. apply andb_false_intro1. destruct (forallb _ ps) eqn:EF; [|reflexivity].
  rewrite forallb_forall in EF. specialize (EF _ Hin). unfold mhas in EF. cbn [fst] in EF. now rewrite HN in EF.
Qed.

Lemma required_props_one k s j : ok_ s j = true -> ok_ (required_props [(k, s)]) (JObj [(k, j)]) = true.
Proof.
  intros H. change (JObj [(k, j)]) with (JObj (mk [(k, j)])). apply required_props_accept.
  - repeat constructor. intros [].
  - repeat constructor. exact H.
Qed.

Lemma required_props_string ps x : ok_ (required_props ps) (JStr x) = false.
Proof. now rewrite valid_required_props. Qed.

Lemma safe_required_props ps : safe (required_props ps).
Proof. unfold required_props. safe_lit. Qed.

(** ** Maps *)
Lemma kw_present m k x v : ok_ (JObj m) v = true -> mget k m = Some x -> kw E m k x v = true.
Proof. intros H HM. rewrite valid_kw in H. now apply H. Qed.

Lemma key_admitted o j n : ok_ (JObj o) j = true -> key_of j n -> admits E o n.
Proof.
  intros HV HK.
  assert (TS : forall t, mget "type" o = Some (JStr t) -> type_ok t j = true).
  { intros t HT. pose proof (kw_present _ _ _ _ HV HT) as H. unfold kw in H. cbn [String.eqb Ascii.eqb Bool.eqb] in H.
    now rewrite chk_type_str in H. }
  assert (DS : mget "type" o = Some (JStr "string") \/ mget "type" o <> Some (JStr "string")).
  { destruct (mget "type" o) as [[| | |x| |]|]; try (right; discriminate). destruct (String.eqb_spec x "string") as [->|]; [now left|right; congruence]. }
  destruct DS as [DS|DS].
  { pose proof (TS _ DS) as HT. destruct HK as [s|z|b]; try discriminate HT.
    assert (DP : (exists p, mget "pattern" o = Some (JStr p)) \/ (forall p, mget "pattern" o <> Some (JStr p))).
    { destruct (mget "pattern" o) as [[| | |p| |]|]; eauto; right; intros p'; discriminate. }
    destruct DP as [[p DP]|DP].
    { eapply AdmitPattern; eauto. pose proof (kw_present _ _ _ _ HV DP) as H. exact H. }
    assert (DE : (exists l, mget "enum" o = Some (JArr (map JStr l))) \/ (forall l, mget "enum" o <> Some (JArr (map JStr l)))).
    { destruct (mget "enum" o) as [[| | | |a|]|]; try (right; intros l; discriminate).
      destruct (omap as_str a) as [l|] eqn:EO.
      - left. exists l. apply omap_as_str_Some in EO. now subst.
      - right. intros l [= ->]. rewrite (proj2 (omap_as_str_Some _ l) eq_refl) in EO. discriminate. }
    destruct DE as [[l DE]|DE]; [|now apply AdmitString].
    eapply AdmitEnum; eauto. pose proof (kw_present _ _ _ _ HV DE) as H. unfold kw in H.
    cbn [String.eqb Ascii.eqb Bool.eqb] in H. unfold chk_enum in H. apply existsb_exists in H as (x & Hx & H).
    apply in_map_iff in Hx as (y & <- & Hy). apply jeq_str in H. injection H as ->. exact Hy. }
  assert (DI : mget "type" o = Some (JStr "integer") \/ mget "type" o <> Some (JStr "integer")).
  { destruct (mget "type" o) as [[| | |x| |]|]; try (right; discriminate). destruct (String.eqb_spec x "integer") as [->|]; [now left|right; congruence]. }
  destruct DI as [DI|DI]; [|now apply AdmitOther].
  pose proof (TS _ DI) as HT. destruct HK as [s|z|b]; try discriminate HT.
  pose proof (show_int_form z) as HF. destruct HDp as [D1 D2].
  assert (DM : mget "minimum" o = Some (JNum (NInt 0)) \/ mget "minimum" o <> Some (JNum (NInt 0))).
  { destruct (mget "minimum" o) as [[| |[y|? ?]| | |]|]; try (right; discriminate). destruct y; [now left|right; discriminate|right; discriminate]. }
  destruct DM as [DM|DM].
  - apply AdmitUnsigned; auto. rewrite D1. pose proof (kw_present _ _ _ _ HV DM) as H.
    change (num_leb (NInt 0) (NInt z) = true) in H. rewrite num_leb_int in H. apply Z.leb_le in H.
    destruct (Z.ltb_spec z 0); [lia|exact HF].
  - apply AdmitSigned; auto. rewrite D2. destruct (z <? 0)%Z; [exact HF|now apply digits_decimal].
Qed.

Lemma alternative ks j : ok_ ks j = true -> key_options ks = None \/ exists a, In a (alternatives ks) /\ ok_ (JObj a) j = true.
Proof.
  intros HV. unfold alternatives, key_options.
  destruct ks as [| b | | | |m]; auto; try (left; reflexivity).
  right. cbn [s_get]. destruct (mget "anyOf" m) as [[| | | |a|]|] eqn:EM; try (exists m; split; [now left|exact HV]).
  destruct (omap as_obj a) as [l|] eqn:EO; [|exists m; split; [now left|exact HV]].
  pose proof (kw_present _ _ _ _ HV EM) as H. unfold kw in H. cbn [String.eqb Ascii.eqb Bool.eqb existsb assertion_names orb] in H.
  unfold chk_any in H. cbn [arr_of sub_of s_arr] in H.
  assert (HX : exists s, In s a /\ ok_ s j = true).
  { clear -H. induction a as [|s a IH]; [discriminate|]. cbn [map existsb] in H. apply orb_prop in H as [H|H].
    - exists s. split; [now left|exact H].
    - destruct (IH H) as (s' & Hs & H'). exists s'. split; [now right|exact H']. }
  destruct HX as (s & Hs & HS). apply omap_F2 in EO. clear -EO Hs HS. induction EO as [|x y a l Hx EO IH]; [destruct Hs|].
  destruct Hs as [->|Hs].
  - destruct s; try discriminate. injection Hx as ->. exists y. split; [now left|exact HS].
  - destruct (IH Hs) as (a' & Ha & H'). exists a'. split; [now right|exact H'].
Qed.

Lemma resolve_valid defs a j : seen defs -> ok_ (JObj a) j = true -> ok_ (JObj (resolve_option (s_path S) defs a)) j = true.
Proof.
  intros HS HV. unfold resolve_option. destruct (mget "$ref" a) as [[| | |r| |]|] eqn:ER; try exact HV.
  destruct (strip_prefix _ r) as [n|] eqn:EP; [|exact HV]. destruct (mget n defs) as [[| | | | |d]|] eqn:ED; try exact HV.
  eapply seen_defs; eauto. pose proof (kw_present _ _ _ _ HV ER) as H.
  unfold new_ref. rewrite valid_entries by (repeat constructor; intros []). cbn [forallb fst snd]. rewrite andb_true_r.
  exact H.
Qed.

Lemma map_sound n k t ks vs defs : sound n k ks -> sound n t vs -> seen defs ->
  sound (Datatypes.S n) (TMap k t) (map_schema (s_path S) defs ks vs).
Proof.
  intros HK HT HS v sv j HL HV HJ. destruct v as [| | | | | | | |l| | |]; cbn in HV; try discriminate.
  set (f := fun kv : rval * rval => match kv with (a, b) => match ser_ a k with Some x => match ser_ b t with Some y => Some (x, y) | None => None end | None => None end end) in *.
  destruct (omap f l) as [es|] eqn:EF; [|discriminate]. injection HV as <-. cbn [json_of] in HJ.
  set (h := fun kv : sval * sval => match kv with (a, b) => match key_json a with Some k0 => match json_of b with Some j => Some (k0, j) | None => None end | None => None end end) in *.
  destruct (omap h es) as [js|] eqn:EH; [|discriminate]. injection HJ as <-.
  apply (map_schema_spec E (decimal_digits_signed E HDp)). exists (mk js). split; [reflexivity|]. intros m x Hin.
  assert (HX : In (m, x) js).
  { apply (NoDup_mget _ _ _ (sorted_NoDup _ (sorted_mk _))) in Hin. clear -Hin. unfold mk, mappend in Hin.
    assert (G : forall acc, mget m (fold_left (fun m0 (kv : string * json) => mset (fst kv) (snd kv) m0) js acc) = Some x ->
      In (m, x) js \/ mget m acc = Some x).
    { clear Hin. induction js as [|[a b] js IH]; intros acc H; [now right|]. cbn [fold_left fst snd] in H.
      apply IH in H as [H|H]; [left; now right|]. rewrite mget_mset in H. destruct (String.eqb_spec m a) as [->|]; [|now right].
      injection H as ->. left. now left. }
    apply G in Hin as [H|H]; [exact H|discriminate]. }
  apply omap_F2 in EF. apply omap_F2 in EH.
  assert (HE : exists a b sa sb ja, In (a, b) l /\ ser_ a k = Some sa /\ ser_ b t = Some sb /\ json_of sa = Some ja /\ key_of ja m /\ json_of sb = Some x).
  { clear -EF EH HX. revert js EH HX. induction EF as [|[a b] [sa sb] l es Hab EF IH]; intros js EH HX.
    - inversion EH; subst. destruct HX.
    - inversion EH as [|? [m' x'] ? js' Hs EH']; subst. destruct HX as [[= -> ->]|HX].
      + unfold f in Hab. destruct (ser_ a k) eqn:E1; [|discriminate]. destruct (ser_ b t) eqn:E2; [|discriminate]. injection Hab as <- <-.
        unfold h in Hs. destruct (key_json s) eqn:E3; [|discriminate]. destruct (json_of s0) eqn:E4; [|discriminate]. injection Hs as <- <-.
        destruct (key_json_of _ _ E3) as (ja & J1 & J2). exists a, b, s, s0, ja. repeat split; auto. now left.
      + destruct (IH _ EH' HX) as (a' & b' & sa' & sb' & ja & H & H'). exists a', b', sa', sb', ja. split; [now right|exact H']. }
  destruct HE as (a & b & sa & sb & ja & H1 & H2 & H3 & H4 & H5 & H6). apply size_map in H1 as [L1 L2].
  split; [apply (HT b sb x); auto; lia|].
  assert (HKV : ok_ ks ja = true) by (apply (HK a sa ja); auto; lia).
  destruct (alternative ks ja HKV) as [HN|(o & Ho & HO)]; [now left|]. right. exists o. split; [exact Ho|].
  apply (key_admitted _ ja); [|exact H5]. now apply resolve_valid.
Qed.

Lemma string_map n v vs path defs : sound n v vs -> vs <> JBool false ->
  exists m, map_schema path defs (type_schema "string") vs = JObj m /\ map_like items text_ok E tok n v m.
Proof.
  intros HS HF. set (m := mset "additionalProperties" vs (mk [("type", JStr "object")])).
  exists m. split; [reflexivity|].
  assert (HSo : sorted_keys (map fst m) = true) by apply sorted_mset, sorted_mk.
  assert (HG : forall c, mget c m = if String.eqb c "additionalProperties" then Some vs else if String.eqb c "type" then Some (JStr "object") else None).
  { intros c. unfold m. now rewrite mget_mset. }
  clearbody m. split.
  - split; [|split; [|split]].
    + intros k Hk HN. rewrite HG in HN. destruct (String.eqb_spec k "additionalProperties") as [->|]; [in_names|].
      destruct (String.eqb_spec k "type") as [->|]; [in_names|congruence].
    + right. now rewrite HG.
    + left. now rewrite HG.
    + left. now rewrite HG.
  - now rewrite HG.
  - now rewrite HG.
  - exact HSo.
  - rewrite HG. destruct (String.eqb_spec tok "additionalProperties") as [HE|]; [exfalso; apply tok_fresh; rewrite HE; in_names|].
    destruct (String.eqb_spec tok "type") as [HE|]; [exfalso; apply tok_fresh; rewrite HE; in_names|reflexivity].
  - now rewrite HG.
  - now rewrite HG.
  - exists vs. rewrite HG. split; [reflexivity|]. split; [exact HF|exact HS].
Qed.

Lemma safe_map path defs ks vs : safe (map_schema path defs ks vs).
Proof.
  unfold map_schema. destruct (key_options ks); [|safe_lit]. unfold map_of_kinds.
  set (k := fold_left _ _ _). clearbody k. set (ps := k_patterns k ++ _). clearbody ps.
  assert (HU : In "additionalProperties" used /\ In "patternProperties" used /\ In "properties" used) by (repeat split; in_names).
  destruct HU as (U1 & U2 & U3).
  assert (HG : forall c, c <> "additionalProperties" -> c <> "patternProperties" -> c <> "properties" -> 
     mget c (match k_props k with
      | [] => match ps with [] => mset "additionalProperties" (if k_other k then vs else JBool false) (mk [("type", JStr "object")])
              | _ => mset "patternProperties" (obj (map (fun p => (p, vs)) ps)) (mset "additionalProperties" (if k_other k then vs else JBool false) (mk [("type", JStr "object")])) end
      | _ => mset "properties" (obj (map (fun p => (p, vs)) (k_props k))) (match ps with [] => mset "additionalProperties" (if k_other k then vs else JBool false) (mk [("type", JStr "object")])
              | _ => mset "patternProperties" (obj (map (fun p => (p, vs)) ps)) (mset "additionalProperties" (if k_other k then vs else JBool false) (mk [("type", JStr "object")])) end)
      end) = mget c (mk [("type", JStr "object")])).
  { intros c C1 C2 C3. apply String.eqb_neq in C1, C2, C3. destruct (k_props k), ps; rewrite ?mget_mset, ?C1, ?C2, ?C3; reflexivity. }
  set (m := match k_props k with [] => _ | _ => _ end).
  match type of HG with forall c, _ -> _ -> _ -> mget c ?x = _ => assert (HM : m = x) by (unfold m; destruct (k_props k), ps; reflexivity) end.
  rewrite <- HM in HG. clearbody m.
  apply safe_plain; [exact (fm_null _ _ HFm)| | | | |].
  - apply imm_false. intros c Hc. cbn in Hc. repeat (destruct Hc as [<-|Hc]; [rewrite HG by discriminate; reflexivity|]). destruct Hc.
  - rewrite HG by discriminate. reflexivity.
  - rewrite HG by discriminate. reflexivity.
  - unfold has_type, s_get. rewrite HG by discriminate. reflexivity.
  - rewrite HG by (intros HT; apply tok_fresh; rewrite HT; assumption). apply (fresh_mk tok tok_fresh). reflexivity.
Qed.

(** ** Lists *)
Lemma seq_json n t s l vs js : sound n t s -> (forall x, In x l -> rsize x < n) ->
  omap (fun x => ser_ x t) l = Some vs -> omap json_of vs = Some js -> forallb (ok_ s) js = true.
Proof.
  intros HS HL H1 H2. apply omap_F2 in H1. apply omap_F2 in H2. revert js H2 HL. induction H1 as [|x y l vs Hx H1 IH]; intros js H2 HL.
  - inversion H2; subst. reflexivity.
  - inversion H2 as [|? j ? js' Hj H2']; subst. cbn [forallb]. apply andb_true_intro. split.
    + apply (HS x y j); auto. apply HL. now left.
    + apply IH; auto. intros z Hz. apply HL. now right.
Qed.

Lemma list_len {X Y} (f : X -> option Y) l ys : omap f l = Some ys -> List.length ys = List.length l.
Proof. intros H. apply omap_F2 in H. induction H; cbn; auto. Qed.

Lemma tuple_json n ts ss : Forall2 (A n) ts ss -> forall l vs js, (forall x, In x l -> rsize x < n) ->
  ser_tuple ts (parts l) = Some vs -> omap json_of vs = Some js -> pairwise E ss js = true.
Proof.
  unfold pairwise. induction 1 as [|t s ts ss HA HF IH]; intros l vs js HL H1 H2.
  - destruct l; [|discriminate]. injection H1 as <-. injection H2 as <-. reflexivity.
  - destruct l as [|x l]; [discriminate|]. cbn in H1. fold ser_tuple in H1. fold (parts l) in H1.
    destruct (ser_ x t) as [v|] eqn:E1; [|discriminate]. destruct (ser_tuple ts (parts l)) as [vs'|] eqn:E2; [|discriminate].
    injection H1 as <-. cbn in H2. fold (omap json_of) in H2. destruct (json_of v) as [j|] eqn:E3; [|discriminate].
    destruct (omap json_of vs') as [js'|] eqn:E4; [|discriminate]. injection H2 as <-.
    specialize (IH l vs' js' (fun y Hy => HL y (or_intror Hy)) E2 E4). apply andb_prop in IH as [I1 I2].
    cbn [List.length Nat.eqb combine forallb fst snd]. rewrite I1, I2. rewrite (A_sound _ _ _ HA x v j); auto. apply HL. now left.
Qed.

Lemma subs_post n (Q : json -> Prop) ts : forall k, (forall ss, Forall2 (A n) ts ss -> post (A n) (P n) Q (k ss)) ->
  post (A n) (P n) Q (subs ts k).
Proof.
  induction ts as [|t ts IH]; intros k HK; cbn [subs Derivation.post]; [now apply HK|].
  intros a Ha. apply IH. intros ss HF. apply HK. now constructor.
Qed.
End TypesSound.
