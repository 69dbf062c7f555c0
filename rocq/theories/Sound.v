(** The document [root_schema_for] returns accepts what values of the type are serialized to. *)
From Coq Require Import String Ascii List ZArith Bool Lia.
From Verif Require Import Json JsonFacts Utf8 Encoding EncodingProofs SchemaApi Transform Validate ValidateFacts ValidateKw Pointer
  PointerProofs Private PrivateProps PrivateNull PrivateTag ShapeFacts PrivateFlatten PrivateForFlatten Generate GenerateSpec
  GenerateProofs GenerateDoc SerValue SerValueProofs Types TypesShape Serde SerdeFacts Derivation Properties_Types Properties_Root
  SoundBase SoundStruct SoundTypes SoundStd SoundAdt SoundEnum.
Import ListNotations.
Open Scope string_scope.
Open Scope list_scope.

(** ** The types an implementation asks for *)
Definition style_fields {X} (s : style X) : list (field X) :=
  match s with Unit => [] | Newtype f => [f] | Tuple fs | Struct fs => fs end.
Definition opt_list {A} (o : option A) : list A := match o with Some a => [a] | None => [] end.
Definition field_types {X} (fs : list (field X)) : list rty := flat_map (fun f => [f_ty f; strip_option (f_ty f)]) fs.
Fixpoint data_types {X} (d : data X) : list rty :=
  match d with
  | DStruct _ s => field_types (style_fields s)
  | DEnum _ vs => field_types (flat_map (fun v => style_fields (v_style v)) vs)
  | DRepr _ => []
  | DConv from into own => opt_list from ++ opt_list into ++ data_types own
  end.

Section Asked.
Context {X St : Type}.
Variable items : nat -> item X.
Notation prog := (prog rty St).

Fixpoint asked (t : rty) : list rty :=
  match t with
  | TNonZero i => [TInt i]
  | TOption t | TSeq t | TSet t | TArray _ t | TArrayVec _ t | TBound t | TRange t => [t]
  | TTuple ts => ts
  | TMap k v => [k; v]
  | TResult t e | TEither t e => [t; e]
  | TBytes => [TInt U8]
  | TDuration | TSystemTime => [TInt U64; TInt U32]
  | TOsString => [TSeq (TInt U8); TSeq (TInt U16)]
  | TFwd t | TWeak t => asked t
  | TAdt n cs ts => TUnit :: data_types (d_data (it_decl (items n) cs ts))
  | _ => []
  end.

(** The types reached from [t] *)
Inductive reach (t : rty) : rty -> Prop :=
| reach_refl : reach t t
| reach_step u w : reach t u -> In w (asked u) -> reach t w.

Section Within.
Variable R : rty -> Prop.
Definition asks (fs : list (field X)) : Prop := forall f, In f fs -> R (f_ty f) /\ R (strip_option (f_ty f)).

Lemma within_field (f : field X) (k : json -> prog) : R (f_ty f) /\ R (strip_option (f_ty f)) -> (forall s, within R (k s)) -> within R (field_schema f k).
Proof. intros [H1 H2] HK. unfold field_schema. destruct (f_required f); cbn [within]; auto. Qed.

Lemma within_subs ts (k : list json -> prog) : (forall t, In t ts -> R t) -> (forall s, within R (k s)) -> within R (subs ts k).
Proof.
  revert k. induction ts as [|t ts IH]; intros k H HK; cbn [subs within]; [apply HK|]. split; [apply H; now left|].
  intros s. apply IH; auto. intros u Hu. apply H. now right.
Qed.

Lemma asks_tail (f : field X) fs : asks (f :: fs) -> asks fs.
Proof. intros H g Hg. apply H. now right. Qed.

Lemma within_tuple c fs (k : list json -> prog) : asks fs -> (forall s, within R (k s)) -> within R (tuple_fields c fs k).
Proof.
  revert k. induction fs as [|f fs IH]; intros k H HK; cbn [tuple_fields]; [apply HK|]. pose proof (asks_tail _ _ H) as HT.
  destruct (included _ _ _); [|now apply IH]. apply within_field; [apply H; now left|]. intros s. now apply IH.
Qed.

Lemma within_struct def c fs : forall s (k : json -> prog), asks fs -> (forall s, within R (k s)) -> within R (struct_fields def c fs s k).
Proof.
  induction fs as [|f fs IH]; intros s k H HK; cbn [struct_fields]; [apply HK|]. pose proof (asks_tail _ _ H) as HT.
  destruct (negb _); [now apply IH|]. destruct (f_flatten f).
  - cbn [within]. split; [apply H; now left|]. intros s'. now apply IH.
  - apply within_field; [apply H; now left|]. intros s'. now apply IH.
Qed.

Hypothesis RU : R TUnit.

Lemma within_style def deny c s (k : json -> prog) : asks (style_fields s) -> (forall s, within R (k s)) -> within R (style_prog def deny c s k).
Proof.
  intros H HK. destruct s as [|f|fs|fs]; cbn [style_prog style_fields] in *.
  - cbn [unit_prog within]. auto.
  - apply within_field; auto. apply H. now left.
  - apply within_tuple; auto.
  - unfold struct_prog. apply within_struct; auto.
Qed.

Lemma within_untagged deny c v b (k : json -> prog) : asks (style_fields (v_style v)) -> (forall s, within R (k s)) -> within R (untagged_variant deny c v b k).
Proof. intros H HK. unfold untagged_variant. apply within_style; auto. Qed.

Lemma within_external deny c v (k : json -> prog) : asks (style_fields (v_style v)) -> (forall s, within R (k s)) -> within R (external_variant deny c v k).
Proof.
  intros H HK. unfold external_variant. destruct (v_untagged v); [now apply within_untagged|]. destruct (v_is_unit v); [apply HK|].
  apply within_untagged; auto.
Qed.

Lemma within_adjacent deny c a b v (k : json -> prog) : asks (style_fields (v_style v)) -> (forall s, within R (k s)) -> within R (adjacent_variant deny c a b v k).
Proof.
  intros H HK. unfold adjacent_variant. destruct (v_untagged v); [now apply within_untagged|]. destruct (v_is_unit v); [apply HK|].
  apply within_untagged; auto.
Qed.

Lemma within_internal deny c tag v (k : json -> prog) : asks (style_fields (v_style v)) -> (forall s, within R (k s)) -> within R (internal_variant items deny c tag v k).
Proof.
  intros H HK. unfold internal_variant. destruct (v_untagged v); [now apply within_untagged|].
  destruct (v_style v) as [|f|fs|fs]; cbn [style_fields] in H.
  - cbn [unit_prog within]. auto.
  - destruct (H f (or_introl eq_refl)) as [H1 H2]. destruct (f_required f); [apply within_field; auto|].
    cbn [within]. split; [exact H1|]. intros s st. destruct (for_internal_newtype _ _ s) as [s' []]; [apply HK|]. cbn [within]. auto.
  - apply within_tuple; auto.
  - unfold struct_prog. apply within_struct; auto.
Qed.

Lemma within_variants c one (vs : list (variant X)) : (forall v (k : json -> prog), In v vs -> (forall s, within R (k s)) -> within R (one v k)) ->
  forall (k : list json -> prog), (forall s, within R (k s)) -> within R (variants c one vs k).
Proof.
  induction vs as [|v vs IH]; intros H k HK; cbn [variants]; [apply HK|].
  assert (H' : forall v (k : json -> prog), In v vs -> (forall s, within R (k s)) -> within R (one v k)) by (intros w k' Hw; apply H; now right).
  destruct (included _ _ _); [|now apply IH]. apply H; [now left|]. intros s. now apply IH.
Qed.

Lemma within_enum deny c tg vs (k : json -> prog) : (forall v, In v vs -> asks (style_fields (v_style v))) -> (forall s, within R (k s)) ->
  within R (enum_prog items deny c tg vs k).
Proof.
  intros H HK. unfold enum_prog. destruct vs as [|v0 vs0] eqn:EV; [apply HK|]. rewrite <- EV in *. clear EV v0 vs0.
  destruct tg as [| |tag|tag content].
  - set (cpx := filter (fun v => negb (plain_unit v)) vs). destruct cpx as [|c0 cpx0] eqn:EC; [apply HK|]. rewrite <- EC.
    apply within_variants; auto. intros v k' Hv. apply within_external, H. unfold cpx in Hv. apply filter_In in Hv. tauto.
  - apply within_variants; auto. intros v k' Hv. now apply within_untagged, H.
  - apply within_variants; auto. intros v k' Hv. now apply within_internal, H.
  - apply within_variants; auto. intros v k' Hv. now apply within_adjacent, H.
Qed.
End Within.

Lemma body_asked (R : rty -> Prop) t : (forall u, In u (asked t) -> R u) -> within R (body (St := St) items t).
Proof.
  induction t; intros H; cbn [body within asked] in *; auto;
    try (repeat (intros; split; [apply H; cbn; auto|]); intros; exact I).
  - destruct n; cbn [within]; auto. split; [apply H; now left|]. auto.
  - apply within_subs; auto. intros; exact I.
  - intros st. unfold decl_prog. assert (RU : R TUnit) by (apply H; now left).
    assert (HD : forall u, In u (data_types (d_data (it_decl (items item) consts args))) -> R u) by (intros u Hu; apply H; now right). clear H.
    assert (HA : forall fs, (forall u, In u (field_types fs) -> R u) -> asks R fs).
    { intros fs HF f Hf. split; apply HF; apply in_flat_map; exists f; (split; [exact Hf|cbn; auto]). }
    induction (d_data _) as [def s|tg vs|zs|from into own IH]; cbn [data_types data_prog] in *.
    + apply within_style; auto. intros s'. exact I.
    + apply within_enum; auto; [|intros s'; exact I]. intros v Hv f Hf. apply (HA _ HD). apply in_flat_map. eauto.
    + exact I.
    + destruct (converted (s_contract st) from into) as [t|] eqn:EC.
      * cbn [within]. split; [|intros s; exact I]. apply HD. unfold converted in EC. destruct (s_contract st); rewrite EC; cbn; auto.
        apply in_or_app. right. now left.
      * apply IH. intros u Hu. apply HD. apply in_or_app. right. apply in_or_app. now right.
Qed.

Lemma reach_closed t : closed (info (St := St) items) (reach t).
Proof. intros u HU. cbn [info t_body]. apply body_asked. intros w Hw. now apply reach_step with u. Qed.

Lemma within_allowed (R : rty -> Prop) r (p : prog) : may_read r = true -> within R p -> allowed r p.
Proof. intros HR. induction p; cbn; try tauto; intros HW; try (split; [exact HR|]); intros; apply H; apply HW. Qed.

Lemma body_allowed r : may_read r = true -> all_allowed r (info (St := St) items).
Proof. intros HR t. apply (within_allowed (fun _ => True)); [exact HR|]. apply body_asked. auto. Qed.
End Asked.

(** ** Names *)
(** Text that stands for itself in a reference *)
Definition plain_char (a : ascii) : bool :=
  not_control a && negb (Ascii.eqb a "%") && negb (Ascii.eqb a "~") && negb (Ascii.eqb a "/").
Definition plain_name (s : string) : Prop := utf8_valid s = true /\ sforall plain_char s = true.

Lemma digits_plain d : sforall plain_char (DecimalString.NilEmpty.string_of_uint d) = true.
Proof. induction d; cbn; auto. Qed.

Lemma plain_numbered base i : plain_name base -> plain_name (numbered base i).
Proof.
  intros [H1 H2]. unfold numbered. split.
  - apply utf8_utf8_valid, utf8_app; [now apply utf8_valid_utf8|]. apply all_ascii_utf8, digits_ascii.
  - rewrite sforall_app, H2. cbn. apply digits_plain.
Qed.

Lemma plain_all s : sforall plain_char s = true -> sforall not_control s = true /\ no_pct s = true /\ no_slash s = true /\ ptr_escape s = s.
Proof.
  unfold no_pct, no_slash. induction s as [|a s IH]; [repeat split|]. cbn [sforall ptr_escape]. rewrite andb_true_iff. intros [HA HS].
  destruct (IH HS) as (H1 & H2 & H3 & H4). unfold plain_char in HA. rewrite !andb_true_iff in HA. destruct HA as (((A1 & A2) & A3) & A4).
  rewrite A1, A2, A4, H1, H2, H3. apply negb_true_iff in A3, A4. rewrite A3, A4, H4. repeat split.
Qed.

Lemma at_pointer path name m defs d r :
  good_path path -> NoDup (map fst defs) -> room (path_tokens path) m -> mget name defs = Some d ->
  effective_pointer r = Some (definitions_path_stripped path ++ String "/" (ptr_escape name))%string ->
  s_pointer (JObj (add_definitions path m defs)) r = Some d.
Proof.
  intros HG ND HR Hd HE. unfold s_pointer. rewrite HE. unfold value_pointer.
  rewrite tokens_app_slash; [|apply no_slash_escape|destruct HG as (q & -> & _); eauto].
  fold (path_tokens path). rewrite unescape_escape, walk_app. unfold add_definitions.
  destruct defs as [|kv defs']; [discriminate|]. remember (kv :: defs') as defs eqn:ED. clear ED kv defs'.
  rewrite json_pointer_update_good by exact HG.
  destruct (walk_create_spec (path_tokens path) (fun t => mappend t defs) m HR) as [_ ->].
  cbn [walk child]. rewrite mget_mappend_NoDup by exact ND. now rewrite Hd.
Qed.

Lemma raw_pointer path name :
  utf8_valid (definitions_path_stripped path) = true -> no_pct (definitions_path_stripped path) = true -> plain_name name ->
  effective_pointer (String "#" (definitions_path_stripped path ++ String "/" name))
  = Some (definitions_path_stripped path ++ String "/" (ptr_escape name))%string.
Proof.
  intros HU HP [HN1 HN2]. destruct (plain_all _ HN2) as (_ & H2 & _ & H4). unfold effective_pointer. cbn [Ascii.eqb Bool.eqb].
  apply utf8_valid_utf8 in HU. apply utf8_valid_utf8 in HN1.
  assert (HA : utf8 (definitions_path_stripped path ++ String "/" name)).
  { apply utf8_app; [exact HU|]. apply U1; [reflexivity|exact HN1]. }
  rewrite percent_decode_pdec by exact HA. rewrite pdec_app_no_pct by exact HP.
  rewrite (pdec_no_pct (String "/" name)) by exact H2. rewrite utf8_utf8_valid by exact HA. now rewrite H4.
Qed.

Lemma strip_prefix_app p : forall s r, strip_prefix p s = Some r -> s = (p ++ r)%string.
Proof.
  induction p as [|a p IH]; intros s r; cbn; [now intros [= ->]|]. destruct s as [|b s]; [discriminate|].
  destruct (Ascii.eqb_spec a b) as [->|]; [|discriminate]. intros H. now rewrite (IH _ _ H).
Qed.

(** ** Documents *)
(** Two types whose values have the same JSON, so that one may refer to the schema of the other *)
Definition same_json (items : nat -> item rval) (text_ok : checks) (u u' : rty) : Prop :=
  forall v, match ser items text_ok true v u with Some sv => json_of sv | None => None end
          = match ser items text_ok true v u' with Some sv => json_of sv | None => None end.
Definition alike items text_ok (u u' : rty) : Prop :=
  same_json items text_ok u u' /\ forall tag, plain_open items u tag -> plain_open items u' tag.

Lemma alike_unwrap items text_ok u u' : unwrap u = unwrap u' -> alike items text_ok u u'.
Proof.
  intros H. split.
  - assert (HW : forall t v, match ser items text_ok true v t with Some sv => json_of sv | None => None end
        = match ser items text_ok true v (unwrap t) with Some sv => json_of sv | None => None end \/ v = RDead).
    { intros t v. destruct (ser items text_ok true v t) as [sv|] eqn:ES.
      - destruct (unwrap_ser _ _ _ _ _ ES) as (sv' & -> & HJ). now left.
      - left. destruct (ser items text_ok true v (unwrap t)) as [sv|] eqn:EU; [|reflexivity]. exfalso.
        assert (HX : forall t, ser items text_ok true v (unwrap t) <> None -> ser items text_ok true v t <> None).
        { clear. intros t. induction t; auto; cbn [unwrap]; intros H.
          - rewrite ser_fwd. auto.
          - rewrite ser_weak. specialize (IHt H). destruct v; try (destruct (ser _ _ _ _ t); [discriminate|contradiction]).
            exfalso. clear IHt. revert H. clear. induction t; cbn; auto; now destruct k. }
        apply (HX t); [congruence|exact ES]. }
    intros v. destruct (HW u v) as [->| ->]; [|clear HW].
    + destruct (HW u' v) as [->| ->]; [now rewrite H|]. rewrite H. clear.
      assert (HX : forall t, ser items text_ok true RDead t = None) by (induction t; cbn; auto; now destruct k). now rewrite !HX.
    + assert (HX : forall t, ser items text_ok true RDead t = None) by (induction t; cbn; auto; now destruct k). now rewrite !HX.
  - intros tag (i & cs & ts & def & fs & H1 & H2). exists i, cs, ts, def, fs. rewrite <- H. auto.
Qed.

(** A validator follows the references to the document and to its definitions (their names written as
    in a reference, or as they are): [r] accepts what the schema at [r] in the document accepts. *)
Definition resolves (E : env) (path : string) (doc : json) : Prop :=
  forall r d v,
    (r = "" \/ exists n, plain_name n /\
      (r = definitions_path_stripped path ++ String "/" (encode_ref_name n)
       \/ r = definitions_path_stripped path ++ String "/" n))%string ->
    s_pointer doc (String "#" r) = Some d -> ok (e_ref E (String "#" r) v) = valid D2020 E d v.

(** What holds of the schemas of all types, whatever is known about references *)
Section Base.
Context {St : Type}.
Variable items : nat -> item rval.
Variable text_ok : checks.
Variable E : env.
Hypothesis HFm : formats text_ok E.
Hypothesis HDp : decimal_patterns E.
Variable tok : string.
Hypothesis tok_fresh : ~ In tok used.
Variable S : settings St.
Variable R : rty -> Prop.
Hypothesis HWf : forall u i cs ts, R u -> unwrap u = TAdt i cs ts -> wf_decl items tok (s_contract S) (it_decl (items i) cs ts).
Variable seen : map_t -> Prop.
Hypothesis seen_defs : forall defs r n d v, seen defs ->
  strip_prefix (String "#" (definitions_path_stripped (s_path S) ++ "/")%string) r = Some n ->
  mget n defs = Some (JObj d) -> valid D2020 E (new_ref r) v = true -> valid D2020 E (JObj d) v = true.
Notation A := (A items text_ok E tok).
Notation P := (P items text_ok E tok).

Lemma step_all n u : R u -> post (St := St) S seen (A n) (P n) (P (Datatypes.S n) u) (body items u).
Proof.
  intros HU. apply std_step; auto. intros i cs ts HE'. apply decl_step; auto. eapply HWf; eauto.
Qed.

Lemma post_mono (A1 A2 C1 C2 : rty -> json -> Prop) Q p : (forall u a, A2 u a -> A1 u a) -> (forall u a, C2 u a -> C1 u a) ->
  post (St := St) S seen A1 C1 Q p -> post S seen A2 C2 Q p.
Proof. intros HA HC. induction p; cbn; auto. Qed.

Lemma base_case ans u s : R u -> derives (info items) R S ans seen u s -> P 0 u s.
Proof.
  revert u s. apply (derives_inv (info items) R S ans seen). intros u HU. cbn [info t_body t_inline].
  eapply post_weak; [exact (P_zero _ _ _ _ u)|]. eapply post_mono; [| |exact (step_all 0 u HU)]; [|auto].
  intros w a [H|(HI & r & ->)]; [now left|]. right. exists r. split; [reflexivity|]. split; [intros v sv j HL; lia|].
  split; [intros tag x v sv m _ HL; lia|]. split; intros ->; discriminate.
Qed.
End Base.

Section DocSound.
Context {St : Type}.
Variable items : nat -> item rval.
Variable text_ok : checks.
Variable E : env.
Hypothesis HFm : formats text_ok E.
Hypothesis HDp : decimal_patterns E.
Variable tok : string.
Hypothesis tok_fresh : ~ In tok used.
Hypothesis tok_root : tok <> "title" /\ tok <> "$schema".
Variable S : settings St.
Hypothesis HTr : s_transforms S = [].
Hypothesis HPath : good_path (s_path S).
Hypothesis HPu : utf8_valid (definitions_path_stripped (s_path S)) = true.
Hypothesis HPp : no_pct (definitions_path_stripped (s_path S)) = true.
Variable more : list string.
Hypothesis HTok : path_tokens (s_path S) = tok :: more.
Variable t : rty.
Notation R := (reach items t).
Hypothesis HWf : forall u i cs ts, R u -> unwrap u = TAdt i cs ts -> wf_decl items tok (s_contract S) (it_decl (items i) cs ts).
Hypothesis HNm : forall u, R u -> type_inline items u = false -> plain_name (type_name items u).
Hypothesis HId : forall u u', R u -> R u' -> type_inline items u = false -> type_id items u = type_id items u' -> alike items text_ok u u'.
Variables (fuel : nat) (st0 : St) (doc : json) (g' : gen rty St).
Hypothesis HRun : root_schema_for (info items) (json_schema (info items) fuel) t (new_gen S st0) = Some (doc, g').
Hypothesis HE : resolves E (s_path S) doc.
Notation ok_ := (valid D2020 E).
Notation sound := (sound items text_ok E).
Notation opens := (opens items text_ok E).
Notation A := (A items text_ok E tok).
Notation P := (P items text_ok E tok).
Notation safe := (safe E tok).

Lemma ok_ref r v : ok_ (new_ref r) v = ok (e_ref E r v).
Proof.
  unfold new_ref. rewrite valid_entries by (repeat constructor; intros []). cbn [forallb fst snd]. rewrite andb_true_r. reflexivity.
Qed.


Lemma ok_ext m m' v : (forall k, In k kws \/ In k ctx -> mget k m = mget k m') -> ok_ (JObj m) v = ok_ (JObj m') v.
Proof.
  intros H. rewrite !valid_forallb.
  assert (HX : forall l, (forall k, In k l -> In k kws) -> forallb (fun k => kw_all E m k v) l = forallb (fun k => kw_all E m' k v) l).
  { induction l as [|k l IH]; intros HL; [reflexivity|]. cbn [forallb]. rewrite IH by (intros c Hc; apply HL; now right). f_equal.
    unfold kw_all. rewrite (H k) by (left; apply HL; now left). destruct (mget k m'); [|reflexivity]. apply kw_ext. auto. }
  apply HX. auto.
Qed.

(** The final state *)
Lemma final : exists gf sch,
    g_set gf = S
    /\ derives_f (info items) R (uid_of (info items) gf t) gf t sch
    /\ doc = JObj (add_definitions (s_path S) (root_object (info items) t S sch) (g_defs gf))
    /\ (forall n d, mget n (g_defs gf) = Some d -> owned (info items) R (uid_of (info items) gf t) gf n d)
    /\ named gf
    /\ based (info items) R gf
    /\ (forall u v n, uget u (g_names gf) = Some n -> uget v (g_names gf) = Some n -> u = v)
    /\ sorted_keys (map fst (g_defs gf)) = true.
Proof.
  destruct (root_derives (info items) R fuel t S st0 doc g') as (gf & sch & H1 & H2 & H3 & H4 & H5 & H6 & H7 & H8); auto.
  - apply reach_closed.
  - apply reach_refl.
  - exists gf, sch. refine (conj H1 (conj H2 (conj H3 (conj H4 (conj H5 (conj H6 (conj _ H8))))))). rewrite H7.
    assert (K : keeps (info items) (new_gen S st0) g').
    { eapply root_keeps; [apply json_schema_keeps, body_allowed; reflexivity|exact HRun]. }
    apply (inv_inj _ _ _ (proj2 K [] (inv_new _ _ _))).
Qed.

Section Final.
Variables (gf : gen rty St) (sch : json).
Hypothesis FS : g_set gf = S.
Hypothesis FD : derives_f (info items) R (uid_of (info items) gf t) gf t sch.
Hypothesis FDoc : doc = JObj (add_definitions (s_path S) (root_object (info items) t S sch) (g_defs gf)).
Hypothesis FO : forall n d, mget n (g_defs gf) = Some d -> owned (info items) R (uid_of (info items) gf t) gf n d.
Hypothesis FN : named gf.
Hypothesis FB : based (info items) R gf.
Hypothesis FI : forall u v n, uget u (g_names gf) = Some n -> uget v (g_names gf) = Some n -> u = v.
Hypothesis FSo : sorted_keys (map fst (g_defs gf)) = true.
Notation derives_ := (derives_f (info items) R (uid_of (info items) gf t) gf).

Lemma name_plain u n : uget u (g_names gf) = Some n -> plain_name n.
Proof.
  intros H. destruct (FB u n H) as (w & HW & HI & HN & _). destruct HN as [->|(i & ->)]; [|apply plain_numbered]; now apply HNm.
Qed.

Lemma tok_absent : mget tok (root_object (info items) t S sch) = None.
Proof.
  pose (E0 := {| e_ref := fun _ _ => {| ok := false; ev := fun _ => false |}; e_rx := e_rx E; e_fmt := e_fmt E |}).
  assert (HP : SoundTypes.P items text_ok E0 tok 0 t sch).
  { unfold derives_f in FD. rewrite FS in FD.
    refine (base_case items text_ok E0 _ _ tok tok_fresh S R HWf (final_defs gf) _ _ t sch (reach_refl _ _) FD).
    - destruct HFm. now split.
    - exact HDp.
    - intros defs r n d v _ _ _ HV. unfold new_ref in HV. rewrite valid_entries in HV by (repeat constructor; intros []). discriminate. }
  assert (HT : mget tok (ensure_obj sch) = None).
  { pose proof (p_safe _ _ _ _ _ _ _ HP) as HSf. pose proof (sf_room _ _ _ HSf) as HT. pose proof (sf_false _ _ _ HSf) as HF.
    destruct sch as [|[]| | | |]; try reflexivity; [congruence|exact HT]. }
  destruct tok_root as [T1 T2].
  unfold root_object. destruct (s_meta S).
  - rewrite mget_mset. destruct (String.eqb_spec tok "$schema"); [contradiction|]. destruct (mhas "title" _); [exact HT|].
    rewrite mget_mset. destruct (String.eqb_spec tok "title"); [contradiction|exact HT].
  - destruct (mhas "title" _); [exact HT|]. rewrite mget_mset. destruct (String.eqb_spec tok "title"); [contradiction|exact HT].
Qed.

Lemma FR : room (path_tokens (s_path S)) (root_object (info items) t S sch).
Proof. rewrite HTok. cbn [room]. now rewrite tok_absent. Qed.

Lemma def_at r n d : mget n (g_defs gf) = Some d ->
  effective_pointer r = Some (definitions_path_stripped (s_path S) ++ String "/" (ptr_escape n))%string -> s_pointer doc r = Some d.
Proof. intros H HP. rewrite FDoc. eapply at_pointer; eauto; [now apply sorted_NoDup|exact FR]. Qed.

Lemma seen_final defs r n d v : final_defs gf defs ->
  strip_prefix (String "#" (definitions_path_stripped (s_path S) ++ "/")%string) r = Some n ->
  mget n defs = Some (JObj d) -> ok_ (new_ref r) v = true -> ok_ (JObj d) v = true.
Proof.
  intros HF HS HD HV. apply HF in HD. apply strip_prefix_app in HS. cbn [append] in HS.
  rewrite sapp_assoc in HS. cbn [append] in HS.
  destruct (FO n _ HD) as (w & HW & HI & HN & _). pose proof (name_plain _ _ HN) as HPl.
  rewrite ok_ref in HV. rewrite HS in HV. erewrite HE in HV; [exact HV| |].
  - right. exists n. split; [exact HPl|now right].
  - eapply def_at; eauto. now apply raw_pointer.
Qed.

Lemma via_ref n u w s : (forall v, ok_ s v = true -> ok_ (new_ref u) v = true) -> forall x, alike items text_ok x w -> P n w s ->
  sound n x (new_ref u) /\ opens n x (new_ref u).
Proof.
  intros HV x [HJ HO] HP. split.
  - intros v sv j HL HS HJ'. apply HV. specialize (HJ v). rewrite HS, HJ' in HJ.
    destruct (ser items text_ok true v w) as [sv'|] eqn:ES; [|discriminate]. eapply (p_sound _ _ _ _ _ _ _ HP); eauto.
  - intros tag y v sv m HPo HL HS HJ'. apply HV. specialize (HJ v). rewrite HS, HJ' in HJ.
    destruct (ser items text_ok true v w) as [sv'|] eqn:ES; [|discriminate]. eapply (P_opens _ _ _ _ _ _ _ HP); eauto.
Qed.

Lemma root_valid v : safe sch -> ok_ doc v = ok_ sch v.
Proof.
  intros HSf. pose proof (sf_schema _ _ _ HSf) as HS. rewrite <- (valid_ensure E sch v HS). rewrite FDoc.
  assert (HT : forall k, In k kws \/ In k ctx -> k <> tok /\ k <> "title" /\ k <> "$schema").
  { intros k Hk. split; [|split].
    - intros ->. apply tok_fresh. unfold used. rewrite !in_app_iff. tauto.
    - intros ->. destruct Hk as [Hk|Hk]; cbn in Hk; repeat (destruct Hk as [Hk|Hk]; [discriminate|]); exact Hk.
    - intros ->. destruct Hk as [Hk|Hk]; cbn in Hk; repeat (destruct Hk as [Hk|Hk]; [discriminate|]); exact Hk. }
  apply ok_ext. intros k Hk. destruct (HT k Hk) as (K1 & K2 & K3).
  rewrite (root_object_of (info items) t S sch (g_defs gf) (s_path S) HPath k).
  - destruct (String.eqb_spec k "$schema"); [contradiction|]. destruct (String.eqb_spec k "title"); [contradiction|]. reflexivity.
  - intros a ts HA. rewrite HTok in HA. injection HA as <- <-. exact K1.
Qed.

Lemma all_sound n : forall u s, R u -> derives_ u s -> P n u s.
Proof.
  induction n as [|n IH].
  { intros u s HU HD. unfold derives_f in HD. rewrite FS in HD. eapply base_case; eauto. exact seen_final. }
  intros u s HU HD. inversion HD as [u' s' HRn]; subst u' s'.
  rewrite FS in HRn. cbn [info t_body] in HRn.
  refine (run_post (info items) R S _ (final_defs gf) (A n) (P n) _ _ s HRn _ _ _ (step_all items text_ok E HFm HDp tok tok_fresh S R HWf (final_defs gf) seen_final n u HU)).
  - intros w r HW HI HA. right. exists r. split; [reflexivity|]. destruct HA as [(-> & HU0)|(m & -> & HN)].
    + unfold uid_of in HU0. injection HU0 as HU0. cbn [info t_id] in HU0.
      pose proof (IH t sch (reach_refl _ _) FD) as HP.
      destruct (via_ref n "#" t sch) with (x := w) as [H1 H2]; auto.
      * intros v HV. rewrite ok_ref. erewrite HE; [|now left|reflexivity]. now rewrite root_valid by apply HP.
      * apply HId; auto. apply reach_refl.
      * split; [exact H1|]. split; [exact H2|]. split; intros ->; discriminate.
    + pose proof (FN _ _ HN) as HM. apply mhas_mget in HM as (d & Hd). destruct (FO m d Hd) as (w' & HW' & HI' & HN' & HD').
      pose proof (FI _ _ _ HN HN') as HU0. unfold uid_of in HU0. injection HU0 as HU0. cbn [info t_id] in HU0.
      pose proof (name_plain _ _ HN) as [HPl1 HPl2]. destruct (plain_all _ HPl2) as (HC & _).
      destruct (via_ref n (reference (s_path (g_set gf)) m) w' d) with (x := w) as [H1 H2]; auto.
      * intros v HV. rewrite ok_ref. unfold reference. erewrite HE; [exact HV| |]; rewrite FS.
        { right. exists m. split; [now split|now left]. }
        eapply def_at; eauto. rewrite <- (lossy_id m HC) at 2. now apply effective_ref_string.
      * split; [exact H1|]. split; [exact H2|]. split; intros ->; discriminate.
  - intros w d HW HDw. left. apply IH; auto. unfold derives_f. now rewrite FS.
  - intros w d HW HDw. apply IH; auto. unfold derives_f. now rewrite FS.
Qed.
End Final.

Theorem root_sound v sv j : ser items text_ok true v t = Some sv -> json_of sv = Some j -> ok_ doc j = true.
Proof.
  intros HS HJ. destruct final as (gf & sch & H1 & H2 & H3 & H4 & H5 & H6 & H7 & H8).
  assert (HP : P (Datatypes.S (rsize v)) t sch) by (eapply all_sound; eauto; apply reach_refl).
  erewrite root_valid; eauto; [|apply HP]. eapply (p_sound _ _ _ _ _ _ _ HP); eauto.
Qed.
End DocSound.
