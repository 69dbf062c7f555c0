(** What implementations return is well-formed when the answers they get are. *)
From Coq Require Import String Ascii List ZArith Bool Lia.
From Verif Require Import Json JsonFacts SchemaApi Transform Private Generate SerValue ValidationAttrs ValidationProofs ValidationField Types TypesShape Serde Derivation SoundTypes Sound
  Wellformed WellformedFacts.
Import ListNotations.
Open Scope string_scope.
Open Scope list_scope.
Notation ue := "unevaluatedProperties".

(** ** What is asked of declarations *)
Definition notes (l : list (string * json)) : Prop := forall k x, In (k, x) l -> note k x.

(** The types with a schema that has named properties and no alternatives *)
Definition named_struct {X} (items : nat -> item X) (t : rty) : Prop :=
  exists i cs ts def fs, t = TAdt i cs ts /\ d_data (it_decl (items i) cs ts) = DStruct def (Struct fs).

Definition takes (c : contract) {X} (f : field X) : bool := included (f_skip_de f) (f_skip_ser f) c.
Definition v_takes (c : contract) {X} (v : variant X) : bool := included (v_skip_de v) (v_skip_ser v) c.

(** Fields: what is attached to them are annotations and sound checks. If the keyword "unevaluatedProperties" is not to
    be used, only structs with named fields are flattened. If "prefixItems" is not to be used, there
    are no tuple structs. *)
(** The bounds of a "length" attribute are counts, those of a "range" attribute are numbers. *)
Definition bounds_are (p : json -> Prop) (o : option length_or_range) : Prop :=
  match o with
  | Some l => forall x, orelse (lr_min l) (lr_equal l) = Some x \/ orelse (lr_max l) (lr_equal l) = Some x -> p x
  | None => True
  end.
Fixpoint sound_checks (a : vattrs) : Prop :=
  bounds_are (fun x => exists n, x = JNum (NInt (Z.of_nat n))) (va_length a)
  /\ bounds_are (fun x => exists n, x = JNum n) (va_range a)
  /\ match va_inner a with Some i => sound_checks i | None => True end.
Definition noted_field {X} (f : field X) : Prop := notes (f_meta f) /\ sound_checks (f_valid f).

Record noted_style {X} (K : list string) (items : nat -> item X) (c : contract) (s : style X) : Prop := {
  ns_notes : forall f, In f (style_fields s) -> noted_field f;
  ns_flat : forall f, In f (style_fields s) -> takes c f = true -> f_flatten f = true -> In ue K -> named_struct items (strip_option (f_ty f));
  ns_tuple : forall fs f, s = Tuple fs -> In f fs -> takes c f = true -> ~ In "prefixItems" K }.

(** Enums: unless there are no variants at all, at least one takes part; and if one of the unit
    variants listed in an "enum" is skipped, another one is not. *)
Record noted_enum {X} (K : list string) (items : nat -> item X) (c : contract) (tg : tagging) (vs : list (variant X)) : Prop := {
  ne_styles : forall v, In v vs -> noted_style K items c (v_style v);
  ne_notes : forall v, In v vs -> notes (v_meta v);
  ne_some : vs = [] \/ exists v, In v vs /\ v_takes c v = true;
  ne_units : tg = External -> forall v, In v vs -> plain_unit v = true -> exists v', In v' vs /\ plain_unit v' = true /\ v_takes c v' = true }.

(** Enums with [JsonSchema_repr] have variants. What is converted from or to another type in this mode
    is described by the schema of that type. *)
Fixpoint noted_data {X} (K : list string) (items : nat -> item X) (c : contract) (d : data X) : Prop :=
  match d with
  | DStruct _ s => noted_style K items c s
  | DEnum tg vs => noted_enum K items c tg vs
  | DRepr zs => zs <> []
  | DConv from into own => converted c from into = None -> noted_data K items c own
  end.
Record noted_decl {X} (K : list string) (items : nat -> item X) (c : contract) (d : decl X) : Prop := {
  nd_notes : notes (d_meta d);
  nd_data : noted_data K items c (d_data d) }.

(** Types: there is no tuple without members ([()] is not a tuple here), and the declarations are as
    above. *)
Definition noted {X} (K : list string) (items : nat -> item X) (c : contract) (t : rty) : Prop :=
  match unwrap t with
  | TTuple ts => ts <> [] /\ ~ In "prefixItems" K
  | TTimeDelta => ~ In "prefixItems" K
  | TMap k _ => In "patternProperties" K -> unwrap k = TStr
  | TAdt i cs ts => noted_decl K items c (it_decl (items i) cs ts)
  | _ => True
  end.

Section Bodies.
Context {X St : Type}.
Variable K : list string.
Hypothesis HK : forall k, In k K -> In k optional_keywords.
Variable items : nat -> item X.
Variable S : settings St.
Variable seen : map_t -> Prop.
Notation c := (s_contract S).
Notation wf := (wellformed K).
Notation top := (top K).
Notation entry := (entry K).

Definition described (u : rty) (s : json) : Prop :=
  top s /\ (In ue K -> named_struct items (unwrap u) -> exists m, s = JObj m /\ struct_part K m) /\ (unwrap u = TStr -> s = type_schema "string").
Definition answered (u : rty) (a : json) : Prop := described u a \/ (t_inline (info (St := St) items u) = false /\ exists r, a = new_ref r).
Notation post_ := (post (St := St) S seen answered described).

Ltac nk := apply (free K HK); let H := fresh in intros H; unfold optional_keywords in H; cbn [In] in H; repeat (destruct H as [H|H]); try discriminate H; exact H.
Ltac ty := apply (entry_type K HK); unfold simple_types; listed.

Lemma ref_top r : top (new_ref r).
Proof.
  unfold new_ref. apply top_obj. split; [|split; [now apply coherent_free|reflexivity]]. apply entries_one. split; [apply kw_text; listed|nk].
Qed.
Lemma answered_top u a : answered u a -> top a.
Proof. intros [[H _]|(_ & r & ->)]; [exact H|apply ref_top]. Qed.
Lemma described_top u a : described u a -> top a.
Proof. now intros [H _]. Qed.

Lemma insert_notes l s : notes l -> top s -> top (insert_all l s).
Proof.
  revert s. induction l as [|[k x] l IH]; intros s HN HS; [exact HS|]. cbn [insert_all fold_left fst snd]. apply IH; [intros k' x' H; apply HN; now right|].
  assert (H : note k x) by (apply HN; now left). apply (top_insert K HK); [now apply (note_entry K HK)|eapply note_inert; eauto|exact HS].
Qed.
Lemma insert_notes_wf l s : notes l -> wf s -> wf (insert_all l s).
Proof.
  revert s. induction l as [|[k x] l IH]; intros s HN HS; [exact HS|]. cbn [insert_all fold_left fst snd]. apply IH; [intros k' x' H; apply HN; now right|].
  assert (H : note k x) by (apply HN; now left). apply (wf_insert K HK); [now apply (note_entry K HK)|eapply note_inert; eauto|exact HS].
Qed.
Lemma insert_note k x s : note k x -> top s -> top (insert k x s).
Proof. intros H HS. apply (insert_notes [(k, x)]); [|exact HS]. intros k' x' [[= <- <-]|[]]. exact H. Qed.
Lemma insert_notes_struct l m : notes l -> struct_part K m -> exists m', insert_all l (JObj m) = JObj m' /\ struct_part K m'.
Proof.
  revert m. induction l as [|[k x] l IH]; intros m HN HS; [exists m; split; [reflexivity|exact HS]|].
  cbn [insert_all fold_left fst snd]. assert (H : note k x) by (apply HN; now left). apply IH; [intros k' x' H'; apply HN; now right|].
  destruct HS as ((E & C & I) & T). pose proof (note_inert _ _ H) as (N1 & N2 & N3). split; [split; [|split]|].
  - apply entries_mset; [now apply (note_entry K HK)|exact E].
  - now rewrite mget_mset_ne by congruence.
  - intros HU. apply no_immediate_iff. intros k' Hk'. cbn [ensure_obj ensure_object]. rewrite mget_mset_ne.
    + now apply (proj1 (no_immediate_iff m) (I HU)).
    + intros ->. destruct H as [k s H|k b H|x|l'|k x H]; unfold immediate_keys in Hk'; try kdiff.
      * cbn [In] in H. destruct H as [<-|[<-|[<-|[]]]]; kdiff.
      * cbn [In] in H. destruct H as [<-|[<-|[<-|[]]]]; kdiff.
      * apply H. unfold vocabulary. cbn [In] in Hk' |- *. tauto.
  - now rewrite mget_mset_ne by congruence.
Qed.

Lemma checks_entry a k x : sound_checks a -> In (k, x) (ValidationField.entries a) -> entry k x.
Proof.
  intros HS H. assert (HL : bounds_are (fun x => exists n, x = JNum (NInt (Z.of_nat n))) (va_length a) /\ bounds_are (fun x => exists n, x = JNum n) (va_range a)).
  { destruct a; cbn in HS |- *. tauto. }
  destruct HL as [HL HR]. apply entries_in in H as [(l & Hl & H)|[(l & Hl & H)|[(-> & p & -> & _)|(-> & f & -> & _)]]].
  - rewrite Hl in HL. cbn [bounds_are] in HL. destruct (HL x) as [n ->]; [tauto|].
    destruct H as [[[<-|[<-|[]]] _]|[[<-|[<-|[]]] _]]; (split; [apply kw_count; listed|nk]).
  - rewrite Hl in HR. cbn [bounds_are] in HR. destruct (HR x) as [n ->]; [tauto|].
    destruct H as [[-> _]|[-> _]]; (split; [apply kw_number; listed|nk]).
  - split; [apply kw_text; listed|nk].
  - split; [apply kw_text; listed|nk].
Qed.
Lemma validation_inert k : In k validation_keywords -> inert k.
Proof. intros H. repeat split; intros ->; cbn [In validation_keywords] in H; repeat (destruct H as [H|H]; [discriminate|]); exact H. Qed.
Lemma items_upd m (f it : json) : sorted_keys (map fst m) = true -> mget "items" m = Some it -> mupd "items" (fun _ => f) m = mset "items" f m.
Proof.
  intros HS H. apply sorted_ext.
  - assert (HM : map fst (mupd "items" (fun _ => f) m) = map fst m).
    { clear. induction m as [|[k x] m IH]; [reflexivity|]. cbn [mupd]. destruct (String.eqb _ k); cbn [map fst]; [reflexivity|now rewrite IH]. }
    now rewrite HM.
  - now apply sorted_mset.
  - intros k. now apply (mupd_items _ _ it).
Qed.
Lemma checks_wf : forall a s, sound_checks a -> wf s -> wf (add_mutators a s).
Proof.
  fix IH 1. intros a s HC HS. rewrite add_mutators_unfold.
  assert (HO : wf (add_outer a s)).
  { apply (outer_ind wf); [exact HS|]. intros s' k x Hin Hs'. apply (wf_insert K HK); [eapply checks_entry; eauto|apply validation_inert; eapply entries_key; eauto|exact Hs']. }
  destruct a as [a1 a2 a3 a4 a5 a6 a7 [i|]]; cbn [va_inner] in *; [|exact HO]. set (s1 := add_outer _ s) in *. clearbody s1.
  destruct (inner_cases s1 (add_mutators i)) as [->|(m & it & -> & Hit & _ & ->)]; [exact HO|].
  apply wf_iff in HO as [E1 C1]. rewrite (items_upd m _ it) by (auto; apply E1). apply wf_iff.
  pose proof (entries_get _ _ _ _ E1 Hit) as [HI HNK].
  assert (HIt : wf it) by (inversion HI; subst; auto; try (exfalso; eapply (note_not _ _ ltac:(eassumption)); listed); kdiff).
  split; [apply entries_mset; [split; [apply kw_schema; [listed|]|exact HNK]|exact E1]|apply coherent_mset; [repeat split; discriminate|exact C1]].
  apply IH; [apply HC|exact HIt].
Qed.
Lemma checks_top a s : sound_checks a -> top s -> top (add_mutators a s).
Proof.
  intros HC [HW HN]. split; [now apply checks_wf|]. clear HC. rewrite add_mutators_unfold.
  assert (HO : s_get "const" (add_outer a s) = None).
  { apply (outer_ind (fun s => s_get "const" s = None)); [exact HN|]. intros s' k x Hin Hs'. unfold insert. cbn [s_get]. rewrite mget_mset_ne.
    - destruct s' as [|[]| | | |m']; auto. - apply entries_key in Hin. apply validation_inert in Hin as (_ & _ & H). congruence. }
  destruct (va_inner a) as [i|]; [|exact HO]. destruct (inner_cases (add_outer a s) (add_mutators i)) as [->|(m & it & HE & Hit & _ & ->)]; [exact HO|].
  rewrite HE in HO. cbn [s_get] in HO |- *. now rewrite mget_mupd.
Qed.
Lemma mutators_top (f : field X) s : noted_field f -> top s -> top (field_mutators f s).
Proof.
  intros [HN HC] HS. unfold field_mutators. apply (insert_notes _ _ HN) in HS. apply (checks_top _ _ HC) in HS.
  set (s1 := add_mutators (f_valid f) (insert_all (f_meta f) s)) in *. clearbody s1.
  assert (H2 : top (if f_skip_de f then insert "readOnly" (JBool true) s1 else s1)) by (destruct (f_skip_de f); [apply insert_note; [apply note_flag; listed|exact HS]|exact HS]).
  destruct (f_skip_ser f); [apply insert_note; [apply note_flag; listed|exact H2]|exact H2].
Qed.
Lemma default_top def (f : field X) s : top s -> top (insert_default def f s).
Proof.
  intros HS. unfold insert_default. destruct (_ || _); [exact HS|]. destruct (f_default_value f); [|exact HS]. apply insert_note; [apply note_default|exact HS].
Qed.

Lemma field_post Q (f : field X) k : noted_field f -> (forall s, top s -> post_ Q (k s)) -> post_ Q (field_schema f k).
Proof.
  intros HN HQ. unfold field_schema. destruct (f_required f); cbn [Derivation.post]; intros a Ha; apply HQ, mutators_top; auto.
  - eapply described_top; eauto. - eapply answered_top; eauto.
Qed.

Lemma subs_post Q ts : forall k, (forall ss, List.length ss = List.length ts -> (forall s, In s ss -> top s) -> post_ Q (k ss)) -> post_ Q (subs ts k).
Proof.
  induction ts as [|t ts IH]; intros k H; cbn [subs Derivation.post]; [apply H; [reflexivity|intros s []]|]. intros a Ha. apply IH. intros ss HL HS.
  apply H; [cbn; congruence|]. intros s [<-|Hs]; [eapply answered_top; eauto|auto].
Qed.

Lemma struct_post Q def k (fs : list (field X)) : (forall f, In f fs -> noted_field f) ->
  (forall f, In f fs -> takes c f = true -> f_flatten f = true -> In ue K -> named_struct items (strip_option (f_ty f))) ->
  (forall m, struct_part K m -> post_ Q (k (JObj m))) ->
  forall m, struct_part K m -> post_ Q (struct_fields def c fs (JObj m) k).
Proof.
  intros HN HF HQ. induction fs as [|f fs IH]; intros m HM; cbn [struct_fields]; [now apply HQ|].
  assert (IH' : forall m, struct_part K m -> post_ Q (struct_fields def c fs (JObj m) k)).
  { apply IH; [intros g Hg; apply HN; now right|]. intros g Hg. apply HF. now right. }
  clear IH. destruct (included (f_skip_de f) (f_skip_ser f) c) eqn:EI; cbn [negb]; [|now apply IH'].
  destruct (f_flatten f) eqn:EF.
  - cbn [Derivation.post]. intros d (D1 & D2 & _).
    assert (HX : unwrap (strip_option (f_ty f)) = strip_option (f_ty f)).
    { clear. induction (f_ty f); cbn; auto. }
    rewrite HX in D2. assert (HFl : flattenable K d) by (split; [exact D1|]; intros HU; apply D2; auto; apply HF; auto; now left).
    destruct (for_flatten_part K HK d (is_option (f_ty f) && negb (f_required f)) HFl) as [HB|HP].
    + destruct (flatten_struct K HK m _ HM (or_introl HB)) as (m' & -> & H'). now apply IH'.
    + destruct (flatten_struct K HK m _ HM (or_intror HP)) as (m' & -> & H'). now apply IH'.
  - apply field_post; [apply HN; now left|]. intros s Hs. destruct (insert_property_struct K HK m (name_for c (f_ser f) (f_de f)) (is_optional def c f) (insert_default def f s) HM) as (m' & -> & H').
    + apply default_top, Hs.
    + now apply IH'.
Qed.

Lemma start_struct (deny : bool) : exists m, obj (("type", JStr "object") :: if deny then [("additionalProperties", JBool false)] else []) = JObj m /\ struct_part K m.
Proof.
  eexists. split; [reflexivity|]. split; [split; [|split]|]; try (destruct deny; reflexivity).
  apply entries_mk. intros k x [[= <- <-]|H]; [ty|]. destruct deny; [|destruct H]. destruct H as [[= <- <-]|[]]. apply (entry_ap K HK). constructor.
Qed.

Lemma tuple_post Q (fs : list (field X)) : (forall f, In f fs -> noted_field f) -> forall k,
  (forall ss, (ss <> [] -> exists f, In f fs /\ takes c f = true) -> (forall s, In s ss -> top s) -> post_ Q (k ss)) -> post_ Q (tuple_fields c fs k).
Proof.
  intros HN. induction fs as [|f fs IH]; intros k HQ; cbn [tuple_fields]; [apply HQ; [easy|intros s []]|].
  assert (HN' : forall g, In g fs -> noted_field g) by (intros g Hg; apply HN; now right).
  destruct (included (f_skip_de f) (f_skip_ser f) c) eqn:EI.
  - apply field_post; [apply HN; now left|]. intros s Hs. apply IH; auto. intros ss _ HSs. apply HQ; [intros _; exists f; split; [now left|exact EI]|].
    intros s' [<-|H']; auto.
  - apply IH; auto. intros ss HE HS. apply HQ; auto. intros HX. destruct (HE HX) as (g & Hg & HT). exists g. split; [now right|exact HT].
Qed.

Lemma count_entry k n : In k ["minItems"; "maxItems"; "minLength"; "maxLength"] -> entry k (jz (Z.of_nat n)).
Proof. intros H. split; [now apply kw_count|]. cbn [In] in H. destruct H as [<-|[<-|[<-|[<-|[]]]]]; nk. Qed.
Lemma prefix_entry ss : ~ In "prefixItems" K -> ss <> [] -> (forall s, In s ss -> top s) -> entry "prefixItems" (JArr ss).
Proof. intros HP HN HS. split; [|exact HP]. apply kw_schemas; [listed|exact HN|]. intros s Hs. apply HS, Hs. Qed.
Lemma tuple_struct_top ss : (ss <> [] -> ~ In "prefixItems" K) -> (forall s, In s ss -> top s) -> top (tuple_struct_schema ss).
Proof.
  intros HP HS. unfold tuple_struct_schema. destruct ss as [|s0 ss0].
  - apply top_obj. split; [|split; [now apply coherent_free|reflexivity]]. apply entries_mset; [apply (count_entry _ 0); listed|]. apply entries_mk. intros k x [[= <- <-]|[]]. ty.
  - set (ss := s0 :: ss0) in *. assert (HN : ss <> []) by easy. clearbody ss. apply top_obj. split; [|split].
    + apply entries_mset; [apply count_entry; listed|]. apply entries_mset; [apply count_entry; listed|]. apply entries_mset; [now apply prefix_entry; auto|].
      apply entries_mk. intros k x [[= <- <-]|[]]. ty.
    + apply coherent_free; rewrite !mget_mset_ne by discriminate; reflexivity.
    + rewrite !mget_mset_ne by discriminate; reflexivity.
Qed.

Lemma unit_top s : answered TUnit s -> top s.
Proof. apply answered_top. Qed.
Lemma style_post Q def deny s k : noted_style K items c s -> (forall j, top j -> post_ Q (k j)) -> post_ Q (style_prog def deny c s k).
Proof.
  intros [H1 H2 H3] HQ. destruct s as [|f|fs|fs]; cbn [style_prog style_fields] in *.
  - cbn [unit_prog Derivation.post]. intros a Ha. apply HQ, (unit_top a Ha).
  - apply field_post; auto. apply H1. now left.
  - apply tuple_post; auto. intros ss HE HS. apply HQ, tuple_struct_top; auto. intros HX. destruct (HE HX) as (f & Hf & HT). now apply (H3 fs f).
  - unfold struct_prog. destruct (start_struct deny) as (m & -> & HM). apply struct_post; auto. intros m' HM'. apply HQ. now apply struct_part_top.
Qed.
Lemma untagged_post Q deny (v : variant X) b k : noted_style K items c (v_style v) -> notes (v_meta v) -> (forall j, top j -> post_ Q (k j)) -> post_ Q (untagged_variant deny c v b k).
Proof. intros HS HN HQ. unfold untagged_variant. apply style_post; auto. intros j Hj. apply HQ. destruct b; auto. now apply insert_notes. Qed.

Lemma external_post Q deny (v : variant X) k : noted_style K items c (v_style v) -> notes (v_meta v) -> (forall j, wf j -> post_ Q (k j)) -> post_ Q (external_variant deny c v k).
Proof.
  intros HS HN HQ. unfold external_variant. destruct (v_untagged v); [apply untagged_post; auto; intros j [Hj _]; auto|].
  destruct (v_is_unit v).
  - apply HQ, insert_notes_wf; auto. apply (tag_wf K HK).
  - apply untagged_post; auto. intros j [Hj _]. apply HQ. apply insert_notes; auto. now apply (external_top K HK).
Qed.
Lemma internal_post Q deny tag (v : variant X) k : noted_style K items c (v_style v) -> notes (v_meta v) -> (forall j, wf j -> post_ Q (k j)) -> post_ Q (internal_variant items deny c tag v k).
Proof.
  intros HS HN HQ. unfold internal_variant. destruct (v_untagged v); [apply untagged_post; auto; intros j [Hj _]; auto|].
  cbv zeta. assert (HF : forall s, top s -> post_ Q (k (insert_all (v_meta v) (apply_internal_tag tag (v_name c v) deny s)))).
  { intros s Hs. apply HQ. apply insert_notes; auto. now apply (apply_tag_top K HK). }
  clear HQ. destruct HS as [H1 H2 H3]. destruct (v_style v) as [|f|fs|fs]; cbn [style_fields] in *.
  - cbn [unit_prog Derivation.post]. intros a Ha. apply HF, (unit_top a Ha).
  - assert (Hf : noted_field f) by (apply H1; now left). destruct (f_required f); [now apply field_post|]. cbn [Derivation.post]. intros d (HD & _).
    pose proof (internal_newtype_top K (type_inline items (f_ty f)) (s_inline S) d HD) as HI.
    destruct (for_internal_newtype (type_inline items (f_ty f)) (s_inline S) d) as [s' inl]. cbn [fst] in HI. destruct inl.
    + apply HF, mutators_top; auto.
    + cbn [Derivation.post]. intros a Ha. apply HF, mutators_top; auto. eapply answered_top; eauto.
  - apply tuple_post; auto. intros ss HE HS. apply HF, tuple_struct_top; auto. intros HX. destruct (HE HX) as (f & Hf & HT). now apply (H3 fs f).
  - unfold struct_prog. destruct (start_struct deny) as (m & -> & HM). apply struct_post; auto. intros m' HM'. apply HF. now apply struct_part_top.
Qed.
Lemma adjacent_top deny tag content name sub : match sub with Some s => wf s | None => True end -> top (adjacent_schema deny tag content name sub).
Proof.
  intros HS. unfold adjacent_schema. apply top_obj. split.
  - apply entries_mk. intros k x Hx. apply in_app_iff in Hx as [[[= <- <-]|[[= <- <-]|[[= <- <-]|[]]]]|Hx].
    + ty.
    + apply (entry_props K HK). intros n s Hs. apply mk_In in Hs. destruct Hs as [[= <- <-]|Hs]; [apply (tag_wf K HK)|]. destruct sub; [|destruct Hs].
      destruct Hs as [[= <- <-]|[]]. exact HS.
    + destruct sub; [apply (entry_required K HK [tag; content])|apply (entry_required K HK [tag])].
    + destruct deny; [|destruct Hx]. destruct Hx as [[= <- <-]|[]]. apply (entry_ap K HK). constructor.
  - assert (HG : forall k, k <> "type" -> k <> "properties" -> k <> "required" -> k <> "additionalProperties" ->
      mget k (mk ([("type", JStr "object"); ("properties", obj ((tag, obj [("type", JStr "string"); ("const", JStr name)]) :: match sub with Some s => [(content, s)] | None => [] end));
        ("required", JArr (JStr tag :: match sub with Some _ => [JStr content] | None => [] end))] ++ (if deny then [("additionalProperties", JBool false)] else []))) = None).
    { intros k N1 N2 N3 N4. apply mget_None. intros HI. apply in_map_iff in HI as ([k' x] & <- & HI). apply mk_In in HI. cbn [fst] in *.
      apply in_app_iff in HI as [[[= <- _]|[[= <- _]|[[= <- _]|[]]]]|HI]; try congruence. destruct deny; [|destruct HI]. destruct HI as [[= <- _]|[]]. congruence. }
    split; [apply coherent_free|]; apply HG; discriminate.
Qed.
Lemma adjacent_post Q deny tag content (v : variant X) k : noted_style K items c (v_style v) -> notes (v_meta v) -> (forall j, wf j -> post_ Q (k j)) -> post_ Q (adjacent_variant deny c tag content v k).
Proof.
  intros HS HN HQ. unfold adjacent_variant. destruct (v_untagged v); [apply untagged_post; auto; intros j [Hj _]; auto|].
  destruct (v_is_unit v).
  - apply HQ. apply insert_notes; auto. now apply adjacent_top.
  - apply untagged_post; auto. intros j [Hj _]. apply HQ. apply insert_notes; auto. now apply adjacent_top.
Qed.

Lemma variants_post Q (one : variant X -> (json -> prog rty St) -> prog rty St) vs :
  (forall v k, In v vs -> (forall j, wf j -> post_ Q (k j)) -> post_ Q (one v k)) -> forall k,
  (forall ss, (forall s, In s ss -> wf s) -> ((exists v, In v vs /\ v_takes c v = true) -> ss <> []) -> post_ Q (k ss)) -> post_ Q (variants c one vs k).
Proof.
  intros H1. induction vs as [|v vs IH]; intros k HQ; cbn [variants].
  { apply HQ; [intros s []|]. intros (v & [] & _). }
  assert (H1' : forall w k, In w vs -> (forall j, wf j -> post_ Q (k j)) -> post_ Q (one w k)) by (intros w k' Hw; apply H1; now right).
  destruct (included (v_skip_de v) (v_skip_ser v) c) eqn:EI.
  - apply H1; [now left|]. intros s Hs. apply IH; auto. intros ss HS _. apply HQ; [|easy]. intros s' [<-|H']; auto.
  - apply IH; auto. intros ss HS HE. apply HQ; auto. intros (w & [<-|Hw] & HT); [unfold v_takes in HT; congruence|]. apply HE. eauto.
Qed.

Lemma unit_names_top (vs : list (variant X)) : (exists v, In v vs /\ v_takes c v = true) -> top (unit_names c vs).
Proof.
  intros (v & Hv & HT). unfold unit_names. set (l := map _ _).
  assert (HL : l <> []).
  { intros HX. assert (HI : In (JStr (v_name c v)) l) by (apply in_map_iff; exists v; split; [reflexivity|]; apply filter_In; now split). rewrite HX in HI. destruct HI. }
  assert (HS : forall x, In x l -> exists s, x = JStr s) by (intros x Hx; apply in_map_iff in Hx as (w & <- & _); eauto).
  clearbody l. apply top_obj. split; [|split].
  - apply entries_mk. intros k x [[= <- <-]|[[= <- <-]|[]]]; [ty|]. split; [now apply kw_enum|nk].
  - constructor; cbn; auto; [|intros [H|H]; discriminate H]. intros _ l' [= <-]. exact HS.
  - reflexivity.
Qed.
Lemma repr_top zs : zs <> [] -> top (repr_schema zs).
Proof.
  intros HZ. apply top_obj. split; [|split].
  - apply entries_mk. intros k x [[= <- <-]|[[= <- <-]|[]]]; [ty|]. split; [apply kw_enum; now destruct zs|nk].
  - constructor; cbn; auto; [|intros [H|H]; discriminate H]. intros H. discriminate H.
  - reflexivity.
Qed.
Lemma variant_schemas_top u (vs : list (variant X)) ss : ss <> [] -> (forall s, In s ss -> wf s) -> top (variant_schemas u vs ss).
Proof.
  intros HN HS. unfold variant_schemas. destruct (u && _); apply top_obj.
  - split; [|split; [now apply coherent_free|reflexivity]]. apply entries_one, (entry_list K HK); auto. listed.
  - split; [|split; [now apply coherent_free|reflexivity]]. apply entries_one, (entry_list K HK); auto. listed.
Qed.

Lemma enum_post Q deny tg vs k : noted_enum K items c tg vs -> (forall j, top j -> post_ Q (k j)) -> post_ Q (enum_prog items deny c tg vs k).
Proof.
  intros [H1 H2 H3 H4] HQ. unfold enum_prog. destruct vs as [|v0 vs0]; [apply HQ; split; [constructor|reflexivity]|].
  set (vs := v0 :: vs0) in *. assert (HE : exists v, In v vs /\ v_takes c v = true) by (destruct H3 as [H3|H3]; [discriminate|exact H3]).
  clearbody vs. clear H3. destruct tg as [| |tag|tag content].
  - set (units := filter plain_unit vs). set (complex := filter (fun v => negb (plain_unit v)) vs).
    assert (HU : units <> [] -> exists v, In v units /\ v_takes c v = true).
    { intros HX. destruct units as [|u us] eqn:EU; [easy|]. assert (HI : In u units) by (rewrite EU; now left). apply filter_In in HI as [HI1 HI2].
      destruct (H4 eq_refl u HI1 HI2) as (w & Hw & HP & HT). rewrite <- EU. exists w. split; [apply filter_In; now split|exact HT]. }
    destruct complex as [|c0 cs0] eqn:EC.
    { apply HQ, unit_names_top, HU. destruct HE as (v & Hv & _). intros HX. destruct (plain_unit v) eqn:EP.
      - assert (HI : In v units) by (apply filter_In; now split). rewrite HX in HI. destruct HI.
      - assert (HI : In v complex) by (apply filter_In; rewrite EP; now split). rewrite EC in HI. destruct HI. }
    rewrite <- EC. assert (HC : forall v, In v complex -> In v vs) by (intros v Hv; now apply filter_In in Hv).
    apply variants_post; [intros v k' Hv HQ'; apply external_post; auto|].
    intros ss HS HN. destruct units as [|u us] eqn:EU.
    + apply HQ, variant_schemas_top; auto. apply HN. destruct HE as (v & Hv & HT). exists v. split; [|exact HT].
      apply filter_In. split; [exact Hv|]. destruct (plain_unit v) eqn:EP; [|reflexivity].
      assert (HI : In v units) by (apply filter_In; now split). rewrite EU in HI. destruct HI.
    + rewrite <- EU in *. apply HQ, variant_schemas_top; [easy|]. intros s [<-|Hs]; [|auto]. apply unit_names_top, HU. rewrite EU. easy.
  - apply variants_post; [intros v k' Hv HQ'; apply untagged_post; auto; intros j [Hj _]; auto|]. intros ss HS HN. apply HQ, variant_schemas_top; auto.
  - apply variants_post; [intros v k' Hv HQ'; apply internal_post; auto|]. intros ss HS HN. apply HQ, variant_schemas_top; auto.
  - apply variants_post; [intros v k' Hv HQ'; apply adjacent_post; auto|]. intros ss HS HN. apply HQ, variant_schemas_top; auto.
Qed.

(** ** Standard types *)
Lemma number_entry k n : In k ["minimum"; "maximum"; "exclusiveMaximum"] -> entry k (JNum n).
Proof. intros H. split; [now apply kw_number|]. cbn [In] in H. destruct H as [<-|[<-|[<-|[]]]]; nk. Qed.
Lemma text_entry k s : In k ["$ref"; "$schema"; "format"; "pattern"] -> entry k (JStr s).
Proof. intros H. split; [now apply kw_text|]. cbn [In] in H. destruct H as [<-|[<-|[<-|[<-|[]]]]]; nk. Qed.
Lemma items_entry s : wf s -> entry "items" s.
Proof. intros H. split; [apply kw_schema; auto; listed|nk]. Qed.
Lemma typed_top t : In t simple_types -> top (type_schema t).
Proof.
  intros H. change (type_schema t) with (JObj [("type", JStr t)]). apply top_obj. split; [|split; [now apply coherent_free|reflexivity]].
  now apply entries_one, (entry_type K HK).
Qed.
Lemma formatted_top t f : In t simple_types -> top (formatted t f).
Proof.
  intros H. apply top_obj. split; [|split; [now apply coherent_free|reflexivity]]. apply entries_mk. intros k x [[= <- <-]|[[= <- <-]|[]]]; [now apply (entry_type K HK)|].
  apply text_entry. listed.
Qed.
Lemma int_top i : top (int_schema i).
Proof.
  apply top_obj. split; [|split; [destruct i; now apply coherent_free|destruct i; reflexivity]]. apply entries_mk. intros k x Hx.
  apply in_app_iff in Hx as [[[= <- <-]|[[= <- <-]|[]]]|Hx]; [ty|apply text_entry; listed|].
  assert (HX : (k = "minimum" \/ k = "maximum") /\ exists n, x = JNum n).
  { destruct i; cbn in Hx; repeat (destruct Hx as [Hx|Hx]; [injection Hx as <- <-; split; [auto|unfold jz; eauto]|]); destruct Hx. }
  destruct HX as [HX (n & ->)]. apply number_entry. cbn [In]. intuition congruence.
Qed.
Lemma required_props_top ps : (forall n s, In (n, s) ps -> wf s) -> top (required_props ps).
Proof.
  intros H. apply top_obj. split; [|split; [now apply coherent_free|reflexivity]]. apply entries_mk. intros k x [[= <- <-]|[[= <- <-]|[[= <- <-]|[]]]].
  - ty.
  - apply (entry_props K HK). intros n s Hs. apply mk_In in Hs. eauto.
  - rewrite <- map_map. apply (entry_required K HK).
Qed.
Lemma alternatives_top ss : ss <> [] -> (forall s, In s ss -> wf s) -> top (obj [("oneOf", JArr ss)]).
Proof.
  intros HN HS. change (obj [("oneOf", JArr ss)]) with (JObj [("oneOf", JArr ss)]). apply top_obj. split; [|split; [now apply coherent_free|reflexivity]].
  apply entries_one, (entry_list K HK); auto. listed.
Qed.

Definition pattern_free (k : key_kinds) : Prop := k_patterns k = [] /\ k_ints k = O.
Lemma map_of_kinds_top k vs : (In "patternProperties" K -> pattern_free k) -> wf vs -> top (map_of_kinds k vs).
Proof.
  intros HP HV. unfold map_of_kinds. set (m1 := mset "additionalProperties" _ _).
  assert (E1 : entries K m1).
  { apply entries_mset; [apply (entry_ap K HK); destruct (k_other k); [exact HV|constructor]|]. apply entries_mk. intros k' x [[= <- <-]|[]]. ty. }
  assert (G1 : mget "const" m1 = None /\ mget "enum" m1 = None) by (split; unfold m1; rewrite mget_mset_ne by discriminate; reflexivity).
  clearbody m1. set (pats := k_patterns k ++ _). set (m2 := match pats with [] => m1 | _ => _ end).
  assert (E2 : entries K m2).
  { unfold m2. destruct pats as [|p ps] eqn:EP; [exact E1|]. rewrite <- EP in *. apply entries_mset; [|exact E1]. split.
    - apply kw_named; [listed|]. intros n s Hs. apply mk_In, in_map_iff in Hs as (q & [= _ <-] & _). exact HV.
    - intros HI. destruct (HP HI) as [P1 P2]. unfold pats in EP. rewrite P1, P2 in EP. discriminate. }
  assert (G2 : mget "const" m2 = None /\ mget "enum" m2 = None) by (unfold m2; destruct pats; [exact G1|]; rewrite !mget_mset_ne by discriminate; exact G1).
  clearbody m2. clear E1 G1. set (m3 := match k_props k with [] => m2 | _ => _ end).
  assert (E3 : entries K m3).
  { unfold m3. destruct (k_props k) as [|p ps]; [exact E2|]. apply entries_mset; [|exact E2]. apply (entry_props K HK). intros n s Hs.
    apply mk_In, in_map_iff in Hs as (q & [= _ <-] & _). exact HV. }
  assert (G3 : mget "const" m3 = None /\ mget "enum" m3 = None) by (unfold m3; destruct (k_props k); [exact G2|]; rewrite !mget_mset_ne by discriminate; exact G2).
  apply top_obj. split; [exact E3|]. split; [now apply coherent_free|apply G3].
Qed.
Lemma map_top path defs ks vs : (In "patternProperties" K -> ks = type_schema "string") -> wf vs -> top (map_schema path defs ks vs).
Proof.
  intros HP HV. unfold map_schema. destruct (key_options ks) as [os|] eqn:EO.
  - apply map_of_kinds_top; [|exact HV]. intros HI. rewrite (HP HI) in EO. cbn in EO. injection EO as <-. cbn. now split.
  - apply top_obj. split; [|split; [now apply coherent_free|reflexivity]]. apply entries_mk. intros k x [[= <- <-]|[[= <- <-]|[]]]; [now apply (entry_ap K HK)|ty].
Qed.

Lemma text_top k : top (text_schema c k).
Proof.
  destruct k; try (apply formatted_top; unfold simple_types; listed).
  - apply top_obj. split; [|split].
    + apply entries_mk. intros k x [[= <- <-]|[[= <- <-]|[]]]; [ty|]. split; [now apply kw_enum|nk].
    + constructor; cbn; auto; [|intros [H|H]; discriminate H]. intros _ l' [= <-] x Hx. repeat (destruct Hx as [<-|Hx]; [eauto|]). destruct Hx.
    + reflexivity.
  - apply top_obj. split; [|split; [now apply coherent_free|reflexivity]]. apply entries_mk. intros k x [[= <- <-]|[[= <- <-]|[]]]; [ty|apply text_entry; listed].
  - apply top_obj. split; [|split; [destruct c; now apply coherent_free|destruct c; reflexivity]]. apply entries_mk.
    intros k x [[= <- <-]|[[= <- <-]|[]]]; [|apply text_entry; listed].
    unfold decimal_type. destruct c; [|ty]. split; [|nk]. apply (kw_types _ ["string"; "number"]); [easy|repeat constructor; cbn; intuition congruence|]. intros t [<-|[<-|[]]]; unfold simple_types; listed.
Qed.

Ltac std := split; [|split; [intros _ (? & ? & ? & ? & ? & HX & _); discriminate HX|intros HX; try discriminate HX]].
Ltac tn := unfold simple_types; listed.
Lemma body_post u : noted K items c u -> post_ (described u) (body items u).
Proof.
  induction u; intros HW; cbn [body Derivation.post] in *.
  - std; [|reflexivity]. apply typed_top. tn.
  - std. apply typed_top. tn.
  - std. apply typed_top. tn.
  - std. apply top_obj. split; [|split; [now apply coherent_free|reflexivity]]. apply entries_mk.
    intros k x [[= <- <-]|[[= <- <-]|[[= <- <-]|[]]]]; [ty|apply (count_entry _ 1); listed|apply (count_entry _ 1); listed].
  - std. apply formatted_top. tn.
  - std. apply formatted_top. tn.
  - std. split; [constructor|reflexivity].
  - std. apply typed_top. tn.
  - std. apply int_top.
  - intros d HD. apply described_top in HD. std. destruct (is_signed i); apply (top_insert K HK); auto.
    + split; [apply kw_schema; [listed|]|nk]. apply wf_iff. split; [|constructor; cbn; auto; [discriminate|]; intros [H|H]; discriminate H]. 
      apply entries_mk. intros k x [[= <- <-]|[]]. split; [apply kw_const|nk].
    + repeat split; discriminate.
    + apply number_entry. listed.
    + repeat split; discriminate.
  - std. apply text_top.
  - intros a HA. apply answered_top in HA. std. now apply (allow_null_top K HK).
  - intros a HA. apply answered_top in HA. std. apply top_obj. split; [|split; [now apply coherent_free|reflexivity]].
    apply entries_mk. intros k x [[= <- <-]|[[= <- <-]|[]]]; [ty|apply items_entry, HA].
  - intros a HA. apply answered_top in HA. std. apply top_obj. split; [|split; [now apply coherent_free|reflexivity]].
    apply entries_mk. intros k x [[= <- <-]|[[= <- <-]|[[= <- <-]|[]]]]; [ty|split; [apply kw_unique|nk]|apply items_entry, HA].
  - destruct n as [|n]; cbn [Derivation.post].
    + std. apply top_obj. split; [|split; [now apply coherent_free|reflexivity]].
      apply entries_mk. intros k x [[= <- <-]|[[= <- <-]|[]]]; [ty|apply (count_entry _ 0); listed].
    + intros a HA. apply answered_top in HA. std. apply top_obj. split; [|split; [now apply coherent_free|reflexivity]].
      apply entries_mk. intros k x [[= <- <-]|[[= <- <-]|[[= <- <-]|[[= <- <-]|[]]]]]; [ty|apply items_entry, HA|apply (count_entry _ (Datatypes.S n)); listed|apply (count_entry _ (Datatypes.S n)); listed].
  - apply subs_post. intros ss HL HS. std. destruct HW as [W1 W2]. apply top_obj. split; [|split; [now apply coherent_free|reflexivity]].
    apply entries_mk. intros k x [[= <- <-]|[[= <- <-]|[[= <- <-]|[[= <- <-]|[]]]]]; [ty| |apply count_entry; listed|apply count_entry; listed].
    apply prefix_entry; auto. destruct ss; [destruct ts; [congruence|discriminate]|easy].
  - intros ks (_ & _ & HKs). intros vs HV. apply answered_top in HV. intros defs _. std. apply map_top; [|apply HV]. intros HI. apply HKs, HW, HI.
  - intros s HS s' HS'. apply answered_top in HS, HS'. std. apply alternatives_top; [easy|].
    intros x [<-|[<-|[]]]; apply required_props_top; intros n y [[= <- <-]|[]]; [apply HS|apply HS'].
  - intros s HS s' HS'. apply answered_top in HS, HS'. std. apply alternatives_top; [easy|].
    intros x [<-|[<-|[<-|[]]]]; [apply required_props_top; intros n y [[= <- <-]|[]]; apply HS|apply required_props_top; intros n y [[= <- <-]|[]]; apply HS'|apply (tag_wf K HK)].
  - intros s HS. apply answered_top in HS. std. apply required_props_top. intros n y [[= <- <-]|[[= <- <-]|[]]]; apply HS.
  - intros s HS s' HS'. apply described_top in HS, HS'. std. apply required_props_top. intros n y [[= <- <-]|[[= <- <-]|[]]]; [apply HS|apply HS'].
  - intros s HS s' HS'. apply described_top in HS, HS'. std. apply required_props_top. intros n y [[= <- <-]|[[= <- <-]|[]]]; [apply HS|apply HS'].
  - intros s HS s' HS'. apply described_top in HS, HS'. std. apply alternatives_top; [easy|].
    intros x [<-|[<-|[]]]; apply required_props_top; intros n y [[= <- <-]|[]]; [apply HS|apply HS'].
  - std. apply top_obj. split; [|split; [destruct c; now apply coherent_free|destruct c; reflexivity]]. apply entries_mk.
    intros k x [[= <- <-]|[[= <- <-]|[]]].
    + destruct c; [|ty]. split; [|nk]. apply (kw_types _ ["array"; "string"]); [easy|repeat constructor; cbn; intuition congruence|]. intros t [<-|[<-|[]]]; tn.
    + apply items_entry. apply wf_iff. split; [|now apply coherent_free].
      apply entries_mk. intros k x [[= <- <-]|[[= <- <-]|[[= <- <-]|[]]]]; [ty|apply number_entry; listed|apply number_entry; listed].
  - intros s HS s' HS'. apply answered_top in HS, HS'. std. apply alternatives_top; [easy|].
    intros x [<-|[<-|[]]]; [change (either_side "Left" s) with (new_externally_tagged_enum_variant "Left" s)|change (either_side "Right" s') with (new_externally_tagged_enum_variant "Right" s')];
      apply external_top; auto; [apply HS|apply HS'].
  - intros a HA. apply answered_top in HA. std. apply top_obj. split; [|split; [now apply coherent_free|reflexivity]].
    apply entries_mk. intros k x [[= <- <-]|[[= <- <-]|[[= <- <-]|[]]]]; [ty|apply items_entry, HA|apply (count_entry _ n); listed].
  - intros a HA. apply answered_top in HA. std. apply top_obj. split; [|split; [destruct c; now apply coherent_free|destruct c; reflexivity]]. apply entries_mk.
    intros k x [[= <- <-]|[[= <- <-]|[]]]; [|apply items_entry, HA].
    destruct c; [|ty]. split; [|nk]. apply (kw_types _ ["array"; "string"]); [easy|repeat constructor; cbn; intuition congruence|]. intros t [<-|[<-|[]]]; tn.
  - std. apply top_obj. split; [|split; [now apply coherent_free|reflexivity]]. apply entries_mk.
    intros k x [[= <- <-]|[[= <- <-]|[[= <- <-]|[[= <- <-]|[]]]]]; [ty| |apply (count_entry _ 2); listed|apply (count_entry _ 2); listed].
    apply prefix_entry; [exact HW|easy|]. intros s [<-|[<-|[]]]; [apply (formatted_top "integer" "int64"); tn|].
    apply top_obj. split; [|split; [now apply coherent_free|reflexivity]]. apply entries_mk.
    intros k x [[= <- <-]|[[= <- <-]|[[= <- <-]|[]]]]; [ty|apply number_entry; listed|apply number_entry; listed].
  - exact (IHu HW).
  - exact (IHu HW).
  - unfold noted in HW. cbn [unwrap] in HW. destruct HW as [HN HD]. unfold decl_prog.
    assert (HT : forall j, (forall def fs, d_data (it_decl (items item) consts args) <> DStruct def (Struct fs)) -> top j ->
      described (TAdt item consts args) (insert_all (d_meta (it_decl (items item) consts args)) j)).
    { intros j HX Hj. split; [now apply insert_notes|]. split; [|discriminate].
      intros _ (i & cs & ts & def' & fs & [= <- <- <-] & HY). now apply HX in HY. }
    destruct (d_data (it_decl (items item) consts args)) as [def s|tg vs|zs|from into own] eqn:ED.
    + destruct s as [|f|fs|fs].
      all: cycle 3.
      * cbn [data_prog style_prog]. unfold struct_prog. destruct (start_struct (d_deny (it_decl (items item) consts args))) as (m & -> & HM).
        destruct HD as [D1 D2 _]. apply struct_post; auto. intros m' HM'. cbn [Derivation.post].
        destruct (insert_notes_struct _ _ HN HM') as (m2 & -> & HM2). split; [now apply struct_part_top|]. split; [eauto|discriminate].
      * apply style_post; auto. intros j Hj. cbn [Derivation.post]. apply HT; [congruence|exact Hj].
      * apply style_post; auto. intros j Hj. cbn [Derivation.post]. apply HT; [congruence|exact Hj].
      * apply style_post; auto. intros j Hj. cbn [Derivation.post]. apply HT; [congruence|exact Hj].
    + apply enum_post; auto. intros j Hj. cbn [Derivation.post]. apply HT; [congruence|exact Hj].
    + cbn [data_prog Derivation.post noted_data] in *. apply HT; [congruence|]. apply repr_top. exact HD.
    + assert (HX : forall def fs, DConv from into own <> DStruct def (Struct fs)) by congruence.
      specialize (fun j => HT j HX). clear HX ED. rename into into into0. revert from into0 HD.
      set (k := fun s => Ret (insert_all (d_meta (it_decl (items item) consts args)) s)).
      assert (HC : forall d, noted_data K items c d -> post_ (described (TAdt item consts args)) (data_prog items (d_deny (it_decl (items item) consts args)) c d k)).
      { induction d as [def s|tg vs|zs|from into own' IH]; intros HD; cbn [data_prog].
        - apply style_post; auto.
        - apply enum_post; auto.
        - apply HT. now apply repr_top.
        - cbn [noted_data] in HD. destruct (converted c from into) as [t|]; [|apply IH; auto].
          cbn [Derivation.post]. intros s HS. apply HT. now apply described_top in HS. }
      intros from into HD. exact (HC _ HD).
Qed.
End Bodies.

(** Everything derived from noted types is well-formed. *)
Theorem derives_described {X St} K (items : nat -> item X) (S : settings St) seen ans (R : rty -> Prop) t s :
  (forall k, In k K -> In k optional_keywords) -> (forall u, R u -> noted K items (s_contract S) u) ->
  R t -> derives (info items) R S ans seen t s -> described K items t s.
Proof. intros HK HN. apply derives_inv. intros u HR. cbn [info t_body]. apply body_post; auto. Qed.
