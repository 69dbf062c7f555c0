(** The schemas of the modelled types accept only JSON that serde reads, given that the schemas of
    their parts do. *)
From Coq Require Import String Ascii List ZArith Bool Lia.
From Verif Require Import Json JsonFacts Utf8 SchemaApi Transform Validate ValidateFacts ValidateKw Pointer Private PrivateProps
  PrivateNull PrivateTag ShapeFacts PrivateFlatten PrivateForFlatten Generate SerValue ValidationAttrs ValidationProofs ValidationField Types TypesShape Serde Derivation SoundBase SoundStruct SoundTypes TypesSchema Reads ReadsChecks.
Import ListNotations.
Open Scope string_scope.
Open Scope list_scope.

(** The formats of the integer types whose range the schema does not state, and of the types written as
    strings (addresses, dates, ...), are checked. *)
Record checks_formats (text_ok : checks) (E : env) : Prop := {
  cf_int : forall i z, In i [I32; I64; ISize; U32; U64; USize] -> e_fmt E (int_format i) (JNum (NInt z)) = true -> in_range i z = true;
  cf_text : forall k s, ~ In k [Weekday; SemVer; Decimal] -> e_fmt E (text_format k) (JStr s) = true -> text_ok k s = true;
  cf_meets : forall a j, satisfies E a j = true -> meets text_ok a j = true }.

(** ** JSON values *)
Lemma depth_elem l x : In x l -> depth x < depth (JArr l).
Proof.
  cbn [depth]. induction l as [|y l IH]; [intros []|]. cbn [fold_right]. intros [->|H]; [lia|]. apply IH in H. lia.
Qed.
Lemma depth_value o k x : In (k, x) o -> depth x < depth (JObj o).
Proof.
  cbn [depth]. induction o as [|y l IH]; [intros []|]. cbn [fold_right]. intros [->|H]; [cbn [snd]; lia|]. apply IH in H. lia.
Qed.
Lemma instance_elem l x : instance (JArr l) -> In x l -> instance x.
Proof.
  intros [H1 H2] HI. cbn [wf exact] in *. rewrite forallb_forall in H1, H2. split; auto.
Qed.
Lemma instance_value o k x : instance (JObj o) -> In (k, x) o -> instance x.
Proof.
  intros [H1 H2] HI. cbn [wf exact] in *. apply andb_prop in H1 as [_ H1]. rewrite forallb_forall in H1, H2.
  specialize (H1 _ HI). specialize (H2 _ HI). split; assumption.
Qed.
Lemma in_mdel {A} k (m : list (string * A)) x : In x (mdel k m) -> In x m.
Proof. induction m as [|[k' y] m IH]; [auto|]. cbn [mdel]. destruct (String.eqb k k'); cbn [In]; intuition. Qed.
Lemma depth_mdel k o : depth (JObj (mdel k o)) <= depth (JObj o).
Proof. cbn [depth]. induction o as [|[k' y] o IH]; [auto|]. cbn [mdel]. destruct (String.eqb k k'); cbn [fold_right snd]; lia. Qed.
Lemma instance_mdel k o : instance (JObj o) -> instance (JObj (mdel k o)).
Proof.
  intros [H1 H2]. cbn [wf exact] in *. apply andb_prop in H1 as [H0 H1]. rewrite forallb_forall in H1, H2. split; cbn [wf exact].
  - rewrite (sorted_mdel k o H0). cbn [andb]. apply forallb_forall. intros x Hx. apply H1. eapply in_mdel; eauto.
  - apply forallb_forall. intros x Hx. apply H2. eapply in_mdel; eauto.
Qed.
Lemma instance_nodup o : instance (JObj o) -> NoDup (map fst o).
Proof. intros [H _]. now apply wf_NoDup. Qed.

(** A struct that ignores unknown fields is read from an object without one of those, too. *)
Scheme reads_mut := Minimality for reads Sort Prop
  with reads_style_mut := Minimality for reads_style Sort Prop
  with reads_flat_mut := Minimality for reads_flat Sort Prop
  with reads_variant_mut := Minimality for reads_variant Sort Prop
  with reads_data_mut := Minimality for reads_data Sort Prop.

Definition lax_struct {X} (items : nat -> item X) (t : rty) : Prop := exists i cs ts def fs,
  t = TAdt i cs ts /\ d_data (it_decl (items i) cs ts) = DStruct def (Struct fs) /\ d_deny (it_decl (items i) cs ts) = false.
Lemma open_lax {X} (items : nat -> item X) t : open_struct items t -> lax_struct items t.
Proof. intros (i & cs & ts & def & fs & H1 & H2 & H3 & _). exists i, cs, ts, def, fs. auto. Qed.
Lemma reads_mdel {X} (items : nat -> item X) text_ok tag t j : reads items text_ok t j ->
  forall o, j = JObj o -> lax_struct items t -> ~ takes_key items t tag -> reads items text_ok t (JObj (mdel tag o)).
Proof.
  revert t j. apply (reads_mut X items text_ok
    (fun t j => forall o, j = JObj o -> lax_struct items t -> ~ takes_key items t tag -> reads items text_ok t (JObj (mdel tag o)))
    (fun def deny s j => forall fs o, j = JObj o -> s = Struct fs -> deny = false ->
       (forall f, In f fs -> f_skip_de f = false -> ~ field_takes items f tag) -> reads_style items text_ok def deny s (JObj (mdel tag o)))
    (fun t o => ~ takes_key items (strip_option t) tag -> reads_flat items text_ok t (mdel tag o))
    (fun _ _ _ _ => True)
    (fun deny d j => forall def fs o, j = JObj o -> d = DStruct def (Struct fs) -> deny = false ->
       (forall f, In f fs -> f_skip_de f = false -> ~ field_takes items f tag) -> reads_data items text_ok deny d (JObj (mdel tag o)))).
  all: try (intros; exact I).
  all: try (intros; match goal with H : lax_struct _ _ |- _ => destruct H as (? & ? & ? & ? & ? & HX & _); discriminate HX end).
  all: try (intros; discriminate).
  - intros i cs ts j HD IH o -> (i' & cs' & ts' & def & fs & HX & H1 & H2) HN. injection HX as <- <- <-. constructor.
    rewrite H1, H2 in HD, IH |- *. apply (IH def fs); auto. intros f Hf Hs Hk. apply HN. econstructor; eauto.
  - intros def deny fs o HO HR _ HM HMi HNo HF HF' HMk HMv _ HDn fs' o' [= <-] [= <-] -> HN.
    assert (HG : forall f, In f fs -> f_skip_de f = false -> f_flatten f = false -> mget (f_de f) (mdel tag o) = mget (f_de f) o).
    { intros f Hf Hs Hfl. rewrite mget_mdel. destruct (String.eqb_spec (f_de f) tag) as [Ht|]; [|reflexivity]. exfalso.
      apply (HN f Hf Hs). rewrite <- Ht. now constructor. }
    assert (HIn : forall n x, In (n, x) (mdel tag o) -> In (n, x) o) by (intros n x Hx; now apply in_mdel in Hx).
    constructor; [exact HO| | | |exact HNo| |intros b f a k t n x H1 H2 H3 H4 H5; apply HIn in H4; eapply HMk; eauto|intros b f a k t n x H1 H2 H3 H4 H5; apply HIn in H4; eapply HMv; eauto|discriminate].
    + intros f x Hf Hs Hfl. rewrite HG by auto. now apply HR.
    + intros f x Hf Hs Hfl. rewrite HG by auto. now apply HM.
    + intros f Hf Hs Hfl. rewrite HG by auto. now apply HMi.
    + intros f Hf Hs Hfl. apply HF'; auto. intros Hk. apply (HN f Hf Hs). now apply TkFlat.
  - intros t o HN. apply RfOption.
  - intros t o HN. apply RfWeak.
  - intros k t o HN. apply RfMap.
  - intros t o _ IH HN. apply RfFwd. now apply IH.
  - intros i cs ts def fs o H1 H2 _ IH HN. eapply RfStruct; eauto. apply IH; auto. exists i, cs, ts, def, fs. auto.
  - intros deny def s j _ IH def' fs o -> HE -> HN. injection HE as -> ->. apply RdStruct. now apply (IH fs).
Qed.

Section Step.
Context {X St : Type}.
Variable items : nat -> item X.
Variable text_ok : checks.
Variable E : env.
Hypothesis HFm : checks_formats text_ok E.
Variable tok : string.
Hypothesis tok_fresh : ~ In tok used.
Notation ok_ := (valid D2020 E).
Notation wf_meta := (wf_meta tok).
Notation reads_ := (reads items text_ok).
Notation prog := (prog rty St).
Variable S : settings St.
Hypothesis HSt : s_contract S = Deserialize.
Variable seen : map_t -> Prop.
Variable R : rty -> Prop.
(** The values for which the schemas of the parts are known to be right *)
Variable J : rty -> json -> Prop.

(** ** allow_null *)
Lemma jeq_null_r v : jeq v JNull = is_null v.
Proof. destruct v; reflexivity. Qed.

Lemma allow_null_only s v : is_schema s = true -> mget "const" (ensure_obj s) = None ->
  ok_ (allow_null s) v = true -> v = JNull \/ ok_ s v = true.
Proof.
  intros HS HC. destruct s as [|b| | | |m]; try discriminate.
  { destruct b; cbn [allow_null]; [auto|]. change unit_schema with (type_schema "null"). rewrite valid_type_schema. destruct v; try discriminate. auto. }
  cbn [ensure_obj ensure_object] in HC. change (mget "const" m = None) in HC.
  destruct (Nat.eqb (List.length m) 1
   && match mget "anyOf" m with Some (JArr a) => existsb is_null_schema a | _ => false end) eqn:EA.
  { cbn [allow_null]. rewrite EA. auto. }
  destruct (contains_immediate_subschema m) eqn:EI.
  { cbn [allow_null]. rewrite EA, EI. rewrite valid_anyOf. cbn [existsb]. rewrite orb_false_r, orb_true_iff. intros [H|H]; [auto|].
    left. change unit_schema with (type_schema "null") in H. rewrite valid_type_schema in H. now destruct v. }
  rewrite (allow_null_plain m EI EA), HC. intros H. destruct (is_null v) eqn:Hv; [left; now destruct v|right].
  assert (HO : forall m', (forall k, k <> "type" -> k <> "enum" -> k <> "const" -> mget k m' = mget k m) ->
            ok_ (JObj (other_keywords m')) v = ok_ (JObj (other_keywords m)) v).
  { intros m' Hm. now apply other_ext. }
  rewrite (valid_split E m), HC.
  assert (HT : forall t, chk_type_opt (null_type t) v = chk_type_opt t v) by (intros t; now rewrite null_type_sem, Hv).
  unfold chk_type_opt in HT. rewrite <- (HT (mget "type" m)).
  assert (HP : ok_ (JObj (type_step m)) v = true ->
     (match null_type (mget "type" m) with Some x => chk_type D2020 (Some x) None v | None => true end
      && (match mget "enum" m with Some x => chk_enum (Some x) v | None => true end && (true && ok_ (JObj (other_keywords m)) v))) = true).
  { rewrite valid_split, HO.
    - rewrite !type_step_get. cbn [String.eqb Ascii.eqb Bool.eqb]. rewrite HC. auto.
    - intros k K1 K2 K3. rewrite type_step_get. destruct (String.eqb_spec k "type"); [contradiction|reflexivity]. }
  destruct (mget "enum" m) as [[| | | |e|]|] eqn:EE; try (apply HP; exact H).
  destruct (existsb (json_eqb JNull) e); [apply HP; exact H|].
  rewrite valid_split, HO in H.
  - rewrite !mget_mset, !type_step_get in H. cbn [String.eqb Ascii.eqb Bool.eqb] in H. rewrite HC in H.
    cbn [chk_enum] in *. rewrite existsb_app_one, (jeq_null_r v), Hv, orb_false_r in H. exact H.
  - intros k K1 K2 K3. rewrite mget_mset, type_step_get. destruct (String.eqb_spec k "enum"); [contradiction|].
    destruct (String.eqb_spec k "type"); [contradiction|reflexivity].
Qed.

(** ** Top level keys *)
Definition usable (s : json) : bool := match s with JObj _ | JBool true => true | _ => false end.
Record neat (s : json) : Prop := {
  nt_schema : is_schema s = true;
  nt_room : mget tok (ensure_obj s) = None;
  nt_const : mget "const" (ensure_obj s) = None }.

Lemma const_used : "const" <> tok.
Proof. intros H. apply tok_fresh. rewrite <- H. unfold used. apply in_or_app. left. in_names. Qed.

Lemma neat_insert k x s : k <> tok -> k <> "const" -> neat s -> neat (insert k x s).
Proof.
  intros K1 K2 [H1 H2 H3]. unfold insert. split; [reflexivity| |]; cbn [ensure_obj ensure_object].
  - change (mget tok (mset k x (ensure_obj s)) = None). rewrite mget_mset. destruct (String.eqb_spec tok k); [congruence|exact H2].
  - change (mget "const" (mset k x (ensure_obj s)) = None). rewrite mget_mset. destruct (String.eqb_spec "const" k); [congruence|exact H3].
Qed.
Lemma ann_const k : annotation k -> k <> "const".
Proof. intros [H _] ->. apply H. in_names. Qed.
Lemma neat_insert_all l : forall s, wf_meta l -> neat s -> neat (insert_all l s).
Proof.
  induction l as [|[k x] l IH]; intros s HW HN; [exact HN|]. rewrite insert_all_cons. apply IH.
  - intros k' x' HI. apply (HW k' x'). now right.
  - destruct (HW k x (or_introl eq_refl)) as [HA HT]. apply neat_insert; auto. now apply ann_const.
Qed.
Lemma neat_checks a s : neat s -> neat (add_mutators a s).
Proof.
  intros HN. rewrite add_mutators_unfold.
  assert (HO : neat (add_outer a s)).
  { apply (outer_ind neat); [exact HN|]. intros s' k x Hin HN'. apply entries_key in Hin. apply neat_insert; auto.
    - apply not_eq_sym, (in_used_neq tok tok_fresh). unfold used. apply in_or_app. left. cbn in Hin. repeat (destruct Hin as [<-|Hin]; [in_names|]). destruct Hin.
    - intros ->. cbn in Hin. intuition discriminate. }
  destruct (va_inner a) as [i|]; [|exact HO]. destruct (inner_cases (add_outer a s) (add_mutators i)) as [->|(m & it & HE & Hit & _ & ->)]; [exact HO|].
  rewrite HE in HO. destruct HO as [H1 H2 H3]. change (mget tok m = None) in H2. change (mget "const" m = None) in H3.
  assert (HT : tok <> "items") by (apply (in_used_neq tok tok_fresh); in_names).
  split; [reflexivity| |]; cbn [ensure_obj ensure_object]; [change (mget tok (mupd "items" (fun _ => add_mutators i it) m) = None)|
    change (mget "const" (mupd "items" (fun _ => add_mutators i it) m) = None)]; rewrite mget_mupd; [|exact H3].
  destruct (String.eqb_spec tok "items"); [contradiction|exact H2].
Qed.
Lemma neat_mutators (f : field X) s : readable_field wf_meta f -> neat s -> neat (field_mutators f s).
Proof.
  intros [HW _] HN. unfold field_mutators. destruct (tok_default tok tok_fresh) as (_ & T1 & T2).
  assert (H1 : neat (add_mutators (f_valid f) (insert_all (f_meta f) s))) by now apply neat_checks, neat_insert_all.
  assert (H2 : neat (if f_skip_de f then insert "readOnly" (JBool true) (add_mutators (f_valid f) (insert_all (f_meta f) s)) else add_mutators (f_valid f) (insert_all (f_meta f) s))).
  { destruct (f_skip_de f); [|exact H1]. apply neat_insert; auto. discriminate. }
  destruct (f_skip_ser f); [|exact H2]. apply neat_insert; auto. discriminate.
Qed.
Definition neat_keys (l : list string) : bool := forallb (fun k => existsb (String.eqb k) used && negb (String.eqb k "const")) l.
Lemma neat_obj (l : map_t) : neat_keys (map fst l) = true -> neat (obj l).
Proof.
  intros H. unfold neat_keys in H. rewrite forallb_forall in H. split; [reflexivity| |]; cbn [obj ensure_obj ensure_object].
  - change (mget tok (mk l) = None). apply fresh_mk; [exact tok_fresh|]. apply forallb_forall. intros k Hk. specialize (H k Hk).
    now apply andb_prop in H.
  - change (mget "const" (mk l) = None). destruct (mget "const" (mk l)) eqn:EM; [|reflexivity]. exfalso.
    assert (HI : In "const" (map fst l)) by (apply mk_keys; congruence). specialize (H _ HI). now rewrite andb_false_r in H.
Qed.
Lemma neat_allow_null s : neat s -> neat (allow_null s).
Proof.
  intros [H1 H2 H3]. destruct s as [|b| | | |m]; try discriminate.
  { destruct b; [split; auto|]. apply (neat_obj [("type", JStr "null")]). reflexivity. }
  change (mget tok m = None) in H2. change (mget "const" m = None) in H3.
  assert (HA : is_schema (allow_null (JObj m)) = true) by now apply allow_null_schema.
  pose proof (allow_null_room tok tok_fresh m H2) as HR.
  split; [exact HA| |].
  - destruct (allow_null (JObj m)) as [|[]| | | |m'] eqn:EN; try discriminate; try reflexivity.
    + cbn in HR |- *. destruct (String.eqb_spec tok "not") as [->|]; [|reflexivity]. exfalso. apply tok_fresh. unfold used. apply in_or_app. left. in_names.
    + exact HR.
  - destruct (Nat.eqb (List.length m) 1
   && match mget "anyOf" m with Some (JArr a) => existsb is_null_schema a | _ => false end) eqn:EA.
    { cbn [allow_null]. rewrite EA. exact H3. }
    destruct (contains_immediate_subschema m) eqn:EI; [cbn [allow_null]; now rewrite EA, EI|].
    rewrite (allow_null_plain m EI EA), H3.
    assert (HT : mget "const" (type_step m) = None) by now rewrite type_step_get.
    destruct (mget "enum" m) as [[| | | |e|]|]; try exact HT. destruct (existsb _ e); [exact HT|].
    change (mget "const" (mset "enum" (JArr (e ++ [JNull])) (type_step m)) = None). now rewrite mget_mset.
Qed.

(** ** What is known of the schemas *)
Lemma usable_null s : is_schema s = true -> usable (allow_null s) = true.
Proof.
  intros H. unfold allow_null. destruct s as [|[]| | | |]; try discriminate; try reflexivity. repeat match goal with
    | |- usable (if ?b then _ else _) = true => destruct b
    | |- usable (match ?x with _ => _ end) = true => destruct x
    | |- _ => reflexivity end.
Qed.
Lemma usable_all l : forall s, usable s = true -> usable (insert_all l s) = true.
Proof. induction l as [|[k x] l IH]; intros s H; [exact H|]. rewrite insert_all_cons. now apply IH. Qed.
Definition known (w : rty) (s : json) : Prop := forall x, J w x -> ok_ s x = true -> reads_ w x.
(** The schema of a struct that ignores unknown fields, before it is flattened into another *)
Record open_schema (w : rty) (m : map_t) : Prop := {
  os_shape : object_shape m;
  os_type : mget "type" m = Some (JStr "object");
  os_then : mget "then" m = None;
  os_else : mget "else" m = None;
  os_sorted : sorted_keys (map fst m) = true;
  os_psorted : sorted_keys (map fst (props_of m)) = true;
  os_open : mget "additionalProperties" m = None;
  os_names : forall n, mget n (props_of m) <> None -> takes_key items w n;
  os_required : forall n, In (JStr n) (required_of m) -> takes_key items w n;
  os_strings : forall x, In x (required_of m) -> exists k, x = JStr k }.
Definition A (w : rty) (s : json) : Prop :=
  (R w /\ neat s /\ known w s) /\ (w = TUnit -> s = type_schema "null") /\ shape w s
  /\ (open_struct items w -> (exists r, s = new_ref r) \/ exists m, s = JObj m /\ open_schema w m)
  /\ (solid items w -> usable s = true).
Definition struct_formed (w : rty) (s : json) : Prop :=
  (open_struct items w -> exists m, s = JObj m /\ open_schema w m)
  /\ (is_map w = true -> exists vs, s = obj [("type", JStr "object"); ("additionalProperties", vs)] /\ (flat_map items w -> usable vs = true))
  /\ (solid items w -> usable s = true).
Definition C (w : rty) (s : json) : Prop :=
  A w s /\ (key_string w -> s = type_schema "string") /\ (forall i, w = TInt i -> s = int_schema i) /\ struct_formed w s.
Definition below (j : json) : Prop := forall w x, R w -> depth x < depth j -> instance x -> J w x.
Definition whole (p : rty -> Prop) (j : json) : Prop := forall w x, R w -> p w -> depth x <= depth j -> instance x -> J w x.
Notation post := (post S seen A C).

Lemma reads_strip t j : reads_ (strip_option t) j -> reads_ t j.
Proof. induction t; auto; cbn [strip_option]; intros H; [apply RSome|apply RFwd|apply RWeak, RSome]; auto. Qed.

(** ** Fields *)
Definition field_ok (f : field X) (s : json) : Prop :=
  R (f_read f) /\ neat s /\ forall x, J (f_read f) x -> ok_ s x = true -> reads_ (f_ty f) x /\ meets text_ok (f_valid f) x = true.

Lemma field_checks (f : field X) s x : readable_field wf_meta f -> neat s -> shape (f_read f) s -> ok_ (field_mutators f s) x = true ->
  ok_ s x = true /\ meets text_ok (f_valid f) x = true.
Proof.
  intros [HM HC] HN HS HV. pose proof (nt_schema _ HN) as Hs. rewrite (mutators_checks E tok) in HV by auto. destruct HC as [HC|HC].
  - rewrite no_mutators, (valid_insert_all E tok) in HV by auto. split; [exact HV|]. apply (cf_meets _ _ HFm).
    unfold no_checks in HC. rewrite HC. cbn. now destruct x.
  - assert (HS' : shape (f_read f) (insert_all (f_meta f) s)).
    { destruct (shape_obj _ _ _ HC HS) as (m & ->). clear - HM HS. revert m HS. induction (f_meta f) as [|[k y] l IH]; intros m HS; [exact HS|].
      rewrite insert_all_cons. apply IH; [intros k' y' Hy; apply (HM k' y'); now right|]. apply (shape_ext _ m); [|exact HS].
      destruct (HM k y (or_introl eq_refl)) as [[A1 A2] _]. intros k' Hk. cbn [ensure_obj ensure_object]. rewrite mget_mset.
      cbn [fst snd]. destruct (String.eqb_spec k' k) as [->|]; [|reflexivity]. destruct Hk; contradiction. }
    split.
    + rewrite <- (valid_insert_all E tok (f_meta f)) by auto. eapply narrow_keeps; eauto.
    + apply (cf_meets _ _ HFm). eapply mutators_enforce; [|exact HV]. eapply narrow_types; eauto.
Qed.

Lemma field_post f Q k : readable_field wf_meta f -> (forall s, field_ok f s -> post Q (k s)) -> post Q (field_schema f k).
Proof.
  intros HW H. unfold field_schema, field_ok in *. destruct (f_required f) eqn:EQ; unfold f_read in H; rewrite EQ in H.
  - cbn [Derivation.post]. intros s [[(HR & HN & HK) [_ HS]] _]. apply H. split; [exact HR|]. split; [now apply neat_mutators|].
    intros x HX HV. destruct (field_checks f s x HW HN ltac:(unfold f_read; now rewrite EQ) HV) as [HV' HM]. split; [|exact HM]. apply reads_strip. now apply HK.
  - cbn [Derivation.post]. intros s [(HR & HN & HK) [_ HS]]. apply H. split; [exact HR|]. split; [now apply neat_mutators|].
    intros x HX HV. destruct (field_checks f s x HW HN ltac:(unfold f_read; now rewrite EQ) HV) as [HV' HM]. split; [|exact HM]. now apply HK.
Qed.

Lemma tuple_fields_post Q fs : forall k, (forall f, In f fs -> readable_field wf_meta f) ->
  (forall ss, Forall2 field_ok (taken fs) ss -> post Q (k ss)) -> post Q (tuple_fields Deserialize fs k).
Proof.
  induction fs as [|f fs IH]; intros k HW H; cbn [tuple_fields]; [apply H; constructor|]. cbn [included].
  unfold taken in H. cbn [filter] in H. fold (taken fs) in H. destruct (negb (f_skip_de f)).
  - apply field_post; [apply HW; now left|]. intros s Hs. apply IH; [intros g Hg; apply HW; now right|]. intros ss Hss. apply H. now constructor.
  - apply IH; [intros g Hg; apply HW; now right|exact H].
Qed.

Lemma pairwise_reads (fs : list (field X)) : forall ss l, Forall2 field_ok fs ss -> pairwise E ss l = true ->
  (forall (f : field X) x, R (f_read f) -> In x l -> J (f_read f) x) ->
  Forall2 reads_ (map f_ty fs) l /\ Forall2 (fun f j => meets text_ok (f_valid f) j = true) fs l.
Proof.
  induction fs as [|f fs IH]; intros ss l HF HP HJ; inversion HF; subst; unfold pairwise in HP; apply andb_prop in HP as [HL HP]; apply Nat.eqb_eq in HL.
  - destruct l; [split; constructor|discriminate].
  - destruct l as [|x l]; [discriminate|]. cbn [List.length combine forallb fst snd] in *. apply andb_prop in HP as [HP1 HP2]. cbn [map].
    destruct H1 as (HR & _ & HK). destruct (HK x) as [HX1 HX2]; [|exact HP1|]; [apply HJ; [exact HR|now left]|].
    destruct (IH l' l) as [HL1 HL2]; auto.
    + unfold pairwise. rewrite HP2, andb_true_r. apply Nat.eqb_eq. congruence.
    + intros g z Hg Hz. apply HJ; [exact Hg|now right].
Qed.

(** ** Structs *)
Notation takes := (field_takes items).
(** What a schema with the shape of an object says about an object, but for additionalProperties *)
Definition holds (m o : map_t) : Prop :=
  (forall k s x, mget k (props_of m) = Some s -> In (k, x) o -> ok_ s x = true)
  /\ (forall k, In (JStr k) (required_of m) -> mget k o <> None).
Lemma shape_holds m o : object_shape m -> ok_ (JObj m) (JObj o) = true -> holds m o.
Proof.
  intros HS HV. rewrite valid_shape in HV by exact HS. rewrite !andb_true_iff in HV. destruct HV as [[HP HQ] _]. split.
  - intros k s x Hs Hx. cbn [props_ok] in HP. rewrite forallb_forall in HP. specialize (HP _ Hx). cbn [fst snd] in HP. now rewrite Hs in HP.
  - intros k HR. cbn [required_ok] in HQ. rewrite forallb_forall in HQ. specialize (HQ _ HR). cbn in HQ. unfold mhas in HQ. now destruct (mget k o).
Qed.
Lemma holds_open m o : object_shape m -> mget "type" m = Some (JStr "object") -> mget "additionalProperties" m = None ->
  (forall x, In x (required_of m) -> exists k, x = JStr k) -> holds m o -> ok_ (JObj m) (JObj o) = true.
Proof.
  intros HS HT HA HX [H1 H2]. rewrite valid_shape by exact HS. unfold additional_ok. rewrite HA, andb_true_r. apply andb_true_intro. split.
  - cbn [props_ok]. apply forallb_forall. intros [k x] Hx. cbn [fst snd]. destruct (mget k (props_of m)) as [s|] eqn:Hs; [|reflexivity]. eapply H1; eauto.
  - cbn [required_ok]. apply forallb_forall. intros x Hx. destruct (HX x Hx) as (k & ->). cbn. unfold mhas. specialize (H2 k Hx). now destruct (mget k o).
Qed.

(** The schema [m] contains that of the type of [f], which the field flattens. *)
Definition flat_in (f : field X) (m : map_t) : Prop :=
  is_option (f_ty f) = true
  \/ exists d, R (strip_option (f_ty f)) /\ known (strip_option (f_ty f)) (JObj d) /\ open_schema (strip_option (f_ty f)) d
       /\ (forall k s, mget k (props_of d) = Some s -> mget k (props_of m) = Some s)
       /\ (forall x, In x (required_of d) -> In x (required_of m)).

Definition map_in (f : field X) (m : map_t) : Prop :=
  exists vs, mget "additionalProperties" m = Some vs /\ R (f_ty f) /\ known (f_ty f) (obj [("type", JStr "object"); ("additionalProperties", vs)]).

Record known_struct (def deny : bool) (done : list (field X)) (m : map_t) : Prop := {
  ks_shape : object_shape m;
  ks_type : mget "type" m = Some (JStr "object");
  ks_then : mget "then" m = None;
  ks_else : mget "else" m = None;
  ks_sorted : sorted_keys (map fst m) = true;
  ks_psorted : sorted_keys (map fst (props_of m)) = true;
  ks_room : mget tok m = None;
  ks_fields : forall f, In f done -> f_flatten f = false -> exists s, mget (f_de f) (props_of m) = Some s /\ field_ok f s;
  ks_flat : forall f, In f done -> f_flatten f = true -> is_map (f_ty f) = false -> flat_in f m;
  ks_map : forall f, In f done -> f_flatten f = true -> is_map (f_ty f) = true -> map_in f m;
  ks_names : forall n, mget n (props_of m) <> None -> exists f, In f done /\ takes f n;
  ks_required : forall f, In f done -> f_flatten f = false -> is_optional def Deserialize f = false -> In (JStr (f_de f)) (required_of m);
  ks_all_required : forall n, In (JStr n) (required_of m) -> exists f, In f done /\ takes f n;
  ks_strings : forall x, In x (required_of m) -> exists k, x = JStr k;
  ks_deny : (forall f, In f done -> f_flatten f = true -> is_map (f_ty f) = false) ->
    mget "additionalProperties" m = if deny then Some (JBool false) else None }.

Lemma not_optional def (f : field X) : is_optional def Deserialize f = true -> may_miss def f = true.
Proof.
  unfold is_optional, may_miss. destruct def, (f_default f), (f_skip_if f), (f_required f), (is_option (f_ty f)); cbn; congruence.
Qed.

Lemma flat_option t o : is_option t = true -> reads_flat items text_ok t o.
Proof. induction t; cbn [is_option]; try discriminate; intros H; [apply RfOption|apply RfFwd; auto|apply RfWeak]. Qed.
Lemma flat_struct t o : open_struct items (strip_option t) -> reads_ (strip_option t) (JObj o) -> reads_flat items text_ok t o.
Proof.
  induction t as [| | | | | | | | | | | | | | | | | | | | | | | | | | | |t IH|t IH|n cs0 ts0]; cbn [strip_option]; try (intros (? & ? & ? & ? & ? & HX & _); discriminate HX);
    try (intros; apply RfOption).
  { intros HO HR. apply RfFwd; auto. }
  { intros. apply RfWeak. }
  intros (i' & cs & ts & def & fs & HX & H1 & H2 & _) HR. injection HX as <- <- <-. eapply RfStruct; eauto.
Qed.

Lemma ordpairs_app (P : field X -> field X -> Prop) l1 : forall l2, ForallOrdPairs P (l1 ++ l2) -> forall x y, In x l1 -> In y l2 -> P x y.
Proof.
  induction l1 as [|a l1 IH]; intros l2 H x y Hx Hy; [destruct Hx|]. inversion H as [|? ? H1 H2]; subst. destruct Hx as [<-|Hx].
  - rewrite Forall_forall in H1. apply H1. apply in_or_app. now right.
  - eapply IH; eauto.
Qed.

Lemma depth_filter (p : string * json -> bool) o : depth (JObj (filter p o)) <= depth (JObj o).
Proof. cbn [depth]. induction o as [|y o IH]; [auto|]. cbn [filter]. destruct (p y); cbn [fold_right snd]; lia. Qed.
Lemma sorted_filter (p : string * json -> bool) o : sorted_keys (map fst o) = true -> sorted_keys (map fst (filter p o)) = true.
Proof.
  induction o as [|y o IH]; intros H; [reflexivity|]. cbn [filter]. cbn [map] in H. apply sorted_keys_cons in H as [H1 H2].
  destruct (p y); [|auto]. cbn [map]. apply sorted_keys_cons. split; [|auto]. rewrite Forall_forall in *. intros k Hk. apply H1.
  apply in_map_iff in Hk as (z & <- & Hz). apply filter_In in Hz as [Hz _]. now apply in_map.
Qed.
Lemma instance_filter (p : string * json -> bool) o : instance (JObj o) -> instance (JObj (filter p o)).
Proof.
  intros [H1 H2]. cbn [wf exact] in *. apply andb_prop in H1 as [H0 H1]. rewrite forallb_forall in H1, H2.
  split; cbn [wf exact]; [rewrite sorted_filter by exact H0; cbn [andb]|]; apply forallb_forall; intros y Hy; apply filter_In in Hy as [Hy _]; auto.
Qed.
Lemma valid_map_schema vs o : ok_ (obj [("type", JStr "object"); ("additionalProperties", vs)]) (JObj o) = forallb (fun kx => ok_ vs (snd kx)) o.
Proof. change (obj [("type", JStr "object"); ("additionalProperties", vs)]) with (map_of_kinds (KeyKinds true 0 [] []) vs). rewrite valid_map. reflexivity. Qed.

Lemma struct_reads def deny fs m :
  (forall f, In f fs -> if f_flatten f then deny = false /\ readable_flat items f else readable_field wf_meta f) -> own_keys items fs -> map_last items fs ->
  known_struct def deny (taken fs) m ->
  forall j, instance j -> below j -> whole (style_passes (Struct fs)) j -> ok_ (JObj m) j = true -> reads_style items text_ok def deny (Struct fs) j.
Proof.
  intros HFl HND HML K j HI HB HW HV.
  pose proof (kw_present E m _ _ _ HV (ks_type _ _ _ _ K)) as HT. change (chk_type D2020 (Some (JStr "object")) None j = true) in HT.
  rewrite chk_type_str in HT. destruct (type_object _ HT) as [o ->].
  pose proof (shape_holds m o (ks_shape _ _ _ _ K) HV) as [HP HQ].
  rewrite valid_shape in HV by apply K. rewrite !andb_true_iff in HV. destruct HV as [_ HA].
  assert (HT' : forall f, In f (taken fs) <-> In f fs /\ f_skip_de f = false).
  { intros f. unfold taken. rewrite filter_In, negb_true_iff. reflexivity. }
  assert (HRM : forall f x, In f fs -> f_skip_de f = false -> f_flatten f = false -> mget (f_de f) o = Some x -> reads_ (f_ty f) x /\ meets text_ok (f_valid f) x = true).
  { intros f x Hf Hs Hfl Hx. destruct (ks_fields _ _ _ _ K f (proj2 (HT' f) (conj Hf Hs)) Hfl) as (s & Hs1 & (HR & _ & HK)).
    apply mget_In in Hx. apply HK.
    + apply HB; [exact HR|eapply depth_value; eauto|eapply instance_value; eauto].
    + eapply HP; eauto. }
  assert (HMp : forall before f after k t n x, taken fs = (before ++ f :: after)%list -> f_flatten f = true -> f_ty f = TMap k t ->
       In (n, x) o -> left_over items fs before n -> reads_key k n /\ reads_ t x).
  { intros before f after k t n x HE Hfl Hty Hx [HL1 HL2].
    assert (Hf : In f (taken fs)) by (rewrite HE; apply in_or_app; right; now left).
    destruct (ks_map _ _ _ _ K f Hf Hfl) as (vs & HAd & HR & HK); [now rewrite Hty|].
    set (o' := filter (fun kx => negb (mhas (fst kx) (props_of m))) o).
    assert (HX : reads_ (f_ty f) (JObj o')).
    { apply HK.
      - apply HW; [exact HR|exists f; split; [now apply HT'|split; [exact Hfl|now rewrite Hty]]|apply depth_filter|now apply instance_filter].
      - rewrite valid_map_schema. unfold additional_ok in HA. rewrite HAd in HA. rewrite forallb_forall in HA. apply forallb_forall.
        intros [n' x'] Hx'. apply filter_In in Hx' as [Hx' Hn']. specialize (HA _ Hx'). cbn [fst snd] in *. apply negb_true_iff in Hn'. now rewrite Hn' in HA. }
    rewrite Hty in HX. inversion HX as [| | | | | | | | | | | | | | | | | |k' t' o1 H1 H2| | | | | | | | | | | | | | | |]; subst.
    assert (Hx' : In (n, x) o').
    { apply filter_In. split; [exact Hx|]. cbn [fst]. unfold mhas. destruct (mget n (props_of m)) eqn:En; [|reflexivity]. exfalso.
      destruct (ks_names _ _ _ _ K n) as (g & Hg & Hk); [congruence|].
      destruct (f_flatten g) eqn:Hgf; [|inversion Hk; subst; [now apply (HL1 g)|congruence]].
      inversion Hk as [|g' n' _ Hk']; subst; [congruence|].
      assert (Hgm : is_map (f_ty g) = false).
      { destruct (f_ty g) eqn:Eg; try reflexivity. cbn [strip_option] in Hk'. inversion Hk'. }
      unfold map_last in HML. rewrite HE in HML, Hg. apply in_app_or in Hg as [Hg|[<-|Hg]].
      - destruct (ordpairs_app _ _ _ HML g f Hg (or_introl eq_refl) Hgf Hfl) as [_ HC]. rewrite Hty in HC. specialize (HC eq_refl).
        apply (HL2 g Hg Hgf HC). destruct HC as (i & cs & ts & d & fs' & HC & _). now rewrite HC in Hk' |- *.
      - now rewrite Hty in Hgm.
      - assert (HML' : ForallOrdPairs (fun g f => f_flatten g = true -> f_flatten f = true ->
          is_map (f_ty g) = false /\ (is_map (f_ty f) = true -> closed_struct items (f_ty g))) ((before ++ [f]) ++ after)) by now rewrite <- app_assoc.
        assert (Hf' : In f (before ++ [f])) by (apply in_or_app; right; now left).
        destruct (ordpairs_app _ _ _ HML' f g Hf' Hg Hfl Hgf) as [HC _]. now rewrite Hty in HC. }
    eauto. }
  constructor; [exact HND|intros; now apply HRM|intros; now apply HRM| | | |intros; eapply HMp; eauto|intros; eapply HMp; eauto|].
  - intros f Hf Hs Hfl Hx. destruct (is_optional def Deserialize f) eqn:EO; [now apply not_optional|]. exfalso.
    apply (HQ (f_de f)); [|exact Hx]. now apply (ks_required _ _ _ _ K f (proj2 (HT' f) (conj Hf Hs))).
  - intros f Hf _ Hfl. pose proof (HFl f Hf) as HX. rewrite Hfl in HX. apply HX.
  - intros f Hf Hs Hfl. pose proof (HFl f Hf) as HX. rewrite Hfl in HX. destruct HX as [_ [_ HO]].
    destruct (is_map (f_ty f)) eqn:EM; [destruct (f_ty f); try discriminate; apply RfMap|]. destruct HO as [HO|HO]; [|destruct (f_ty f); try contradiction; discriminate EM].
    destruct (ks_flat _ _ _ _ K f (proj2 (HT' f) (conj Hf Hs)) Hfl EM) as [HOp|(d & HR & HK & HD & HP' & HQ')]; [now apply flat_option|].
    apply flat_struct; [exact HO|]. apply HK.
    + apply HW; [exact HR|exists f; auto|lia|exact HI].
    + apply holds_open; [apply HD|apply HD|apply HD|apply HD|]. split.
      * intros k s x Hk Hx. eapply HP; eauto.
      * intros k Hk. apply HQ, HQ', Hk.
  - intros HD. split.
    { intros f Hf. pose proof (HFl f Hf) as HX. destruct (f_flatten f); [|reflexivity]. destruct HX. congruence. }
    intros k x Hx. unfold additional_ok in HA. rewrite (ks_deny _ _ _ _ K), HD in HA
      by (intros f Hf Hfl; apply HT' in Hf as [Hf _]; pose proof (HFl f Hf) as HX; rewrite Hfl in HX; destruct HX; congruence).
    rewrite forallb_forall in HA.
    specialize (HA _ Hx). cbn [fst snd] in HA. rewrite valid_bool, orb_false_r in HA. unfold mhas in HA.
    destruct (ks_names _ _ _ _ K k) as (f & Hf & Hk); [destruct (mget k (props_of m)); congruence|].
    apply HT' in Hf as [H1 H2]. exists f. split; [exact H1|]. split; [exact H2|].
    pose proof (HFl f H1) as HX. inversion Hk as [? HF|? ? HF]; subst; [reflexivity|]. rewrite HF in HX. destruct HX. congruence.
Qed.

Lemma neat_default def (f : field X) s : neat s -> neat (insert_default def f s).
Proof.
  intros H. unfold insert_default. destruct (f_skip_ser f || _); [exact H|]. destruct (f_default_value f); [|exact H].
  apply neat_insert; [apply (tok_default tok tok_fresh)|discriminate|exact H].
Qed.

Lemma takes_own (f : field X) k : f_flatten f = false -> takes f k <-> k = f_de f.
Proof. intros H. split; [intros HX; inversion HX; subst; congruence|intros ->; now constructor]. Qed.

Definition apart (done : list (field X)) (f : field X) : Prop := forall g k, In g done -> takes g k -> takes f k -> False.

Lemma declare_known def deny done m f s : known_struct def deny done m -> field_ok f s -> f_flatten f = false -> apart done f ->
  exists m', insert_object_property (JObj m) (f_de f) (is_optional def Deserialize f) (insert_default def f s) = JObj m'
    /\ known_struct def deny (done ++ [f]) m'.
Proof.
  intros K HF HFl HN.
  set (s' := insert_default def f s).
  assert (HF' : field_ok f s').
  { destruct HF as (H1 & H2 & H3). split; [exact H1|]. split; [now apply neat_default|]. intros x HX HV. apply H3; [exact HX|].
    unfold s' in HV. now rewrite valid_default in HV by now apply nt_schema. }
  destruct (ks_shape _ _ _ _ K) as (S1 & S2 & S3 & S4). set (opt := is_optional def Deserialize f).
  destruct (insert_property_get m (f_de f) opt s' S3 S4) as (m' & HE & G). exists m'. split; [exact HE|].
  assert (GP : props_of m' = mset (f_de f) s' (props_of m)) by (unfold props_of at 1; now rewrite G).
  assert (GR : required_of m' = if opt then required_of m else required_of m ++ [JStr (f_de f)]).
  { unfold required_of at 1. rewrite G. cbn [String.eqb Ascii.eqb Bool.eqb andb]. destruct opt; reflexivity. }
  assert (HA : forall g k, In g done -> takes g k -> String.eqb k (f_de f) = false).
  { intros g k Hg Hk. apply String.eqb_neq. intros ->. apply (HN g (f_de f) Hg Hk). now constructor. }
  assert (HRI : forall x, In x (required_of m) -> In x (required_of m')).
  { intros x Hx. rewrite GR. destruct opt; [exact Hx|]. apply in_or_app. now left. }
  split.
  - split; [|split; [|split]].
    + intros k Hk. rewrite G. destruct (String.eqb_spec k "properties") as [->|]; [intros _; in_names|].
      destruct (String.eqb k "required" && negb opt) eqn:ER; [|now apply S1].
      apply andb_true_iff in ER as [ER _]. apply String.eqb_eq in ER as ->. intros _. in_names.
    + rewrite G. exact S2.
    + rewrite G. cbn [String.eqb Ascii.eqb Bool.eqb]. right. eauto.
    + rewrite G. cbn [String.eqb Ascii.eqb Bool.eqb]. destruct (negb opt); cbn [andb]; [right; eauto|exact S4].
  - rewrite G. apply K.
  - rewrite G. apply K.
  - rewrite G. apply K.
  - eapply insert_property_sorted; [exact HE|apply K].
  - rewrite GP. apply sorted_mset, K.
  - rewrite G. assert (T1 : tok <> "properties") by (apply (in_used_neq tok tok_fresh); in_names).
    assert (T2 : tok <> "required") by (apply (in_used_neq tok tok_fresh); in_names).
    destruct (String.eqb_spec tok "properties"); [contradiction|]. destruct (String.eqb_spec tok "required"); [contradiction|]. apply K.
  - intros g Hg Hgf. rewrite GP, mget_mset. apply in_app_or in Hg as [Hg|[<-|[]]].
    + rewrite (HA g) by (auto; now constructor). now apply K.
    + rewrite String.eqb_refl. eauto.
  - intros g Hg Hgf HM. apply in_app_or in Hg as [Hg|[<-|[]]]; [|congruence].
    destruct (ks_flat _ _ _ _ K g Hg Hgf HM) as [HOp|(d & HR & HK & HD & HP' & HQ')]; [now left|]. right. exists d.
    do 3 (split; [assumption|]). split; [|auto]. intros k x Hk. rewrite GP, mget_mset, (HA g k); auto.
    apply TkFlat; [exact Hgf|]. apply (os_names _ _ HD). congruence.
  - intros g Hg Hgf HM. apply in_app_or in Hg as [Hg|[<-|[]]]; [|congruence]. destruct (ks_map _ _ _ _ K g Hg Hgf HM) as (vs & H1 & H2).
    exists vs. split; [|exact H2]. now rewrite G.
  - intros n Hn. rewrite GP, mget_mset in Hn. destruct (String.eqb_spec n (f_de f)) as [EQ|NE]; [clear Hn; subst n|].
    + exists f. split; [apply in_or_app; right; now left|now constructor].
    + destruct (ks_names _ _ _ _ K n Hn) as (g & Hg & Hk). exists g. split; [apply in_or_app; now left|exact Hk].
  - intros g Hg Hgf HO. apply in_app_or in Hg as [Hg|[<-|[]]]; [apply HRI; now apply (ks_required _ _ _ _ K)|].
    rewrite GR. unfold opt. rewrite HO. apply in_or_app. right. now left.
  - intros n Hn. rewrite GR in Hn.
    assert (HO : In (JStr n) (required_of m) \/ n = f_de f).
    { destruct opt; [now left|]. apply in_app_or in Hn as [Hn|[Hn|[]]]; [now left|]. injection Hn as <-. now right. }
    destruct HO as [HO| ->].
    + destruct (ks_all_required _ _ _ _ K n HO) as (g & Hg & Hk). exists g. split; [apply in_or_app; now left|exact Hk].
    + exists f. split; [apply in_or_app; right; now left|now constructor].
  - intros x Hx. rewrite GR in Hx. destruct opt; [now apply (ks_strings _ _ _ _ K)|].
    apply in_app_or in Hx as [Hx|[<-|[]]]; [now apply (ks_strings _ _ _ _ K)|eauto].
  - intros HM. rewrite G. apply (ks_deny _ _ _ _ K). intros g Hg. apply HM. apply in_or_app. now left.
Qed.

(** The keys of a flattened schema *)
Lemma flat_known def deny done m f s : known_struct def deny done m -> C (strip_option (f_ty f)) s -> f_flatten f = true -> deny = false ->
  open_struct items (strip_option (f_ty f)) -> apart done f ->
  exists m', flatten (JObj m) (for_flatten s (is_option (f_ty f) && negb (f_required f))) = JObj m' /\ known_struct def deny (done ++ [f]) m'.
Proof.
  intros K HC HFl HD HO HN. destruct HC as (((HR & HNt & HK) & _) & _ & _ & HF & _). destruct (HF HO) as (d & -> & HOs).
  assert (HNM : is_map (f_ty f) = false) by (destruct (f_ty f) eqn:EQ; try reflexivity; destruct HO as (? & ? & ? & ? & ? & HX & _); discriminate HX).
  set (opt := is_option (f_ty f) && negb (f_required f)).
  destruct (for_flatten_get d opt (os_shape _ _ HOs) (os_then _ _ HOs) (os_else _ _ HOs)) as (d' & -> & G & SG).
  assert (GA : forall k, mget k d' = if opt && String.eqb k "required" then None else mget k d).
  { intros k. rewrite G. destruct (mem k ["additionalProperties"; "unevaluatedProperties"]) eqn:EM; [|reflexivity].
    unfold mem in EM. cbn [existsb] in EM. rewrite orb_false_r in EM. apply orb_prop in EM as [EM|EM]; apply String.eqb_eq in EM; subst k;
      cbn [String.eqb Ascii.eqb Bool.eqb]; rewrite andb_false_r.
    - now rewrite (os_open _ _ HOs).
    - rewrite (shape_absent d "unevaluatedProperties"); [reflexivity|apply HOs|in_names|].
      clear. intros HX. cbn in HX. repeat (destruct HX as [HX|HX]; [discriminate|]). exact HX. }
  assert (HS' : object_shape d').
  { destruct (os_shape _ _ HOs) as (K1 & K2 & K3 & K4). split; [|split; [|split]].
    - intros k Hk HX. apply K1; [exact Hk|]. rewrite GA in HX. destruct (opt && String.eqb k "required"); congruence.
    - rewrite GA. cbn [String.eqb Ascii.eqb Bool.eqb]. rewrite andb_false_r. exact K2.
    - rewrite GA. cbn [String.eqb Ascii.eqb Bool.eqb]. rewrite andb_false_r. exact K3.
    - rewrite GA. cbn [String.eqb Ascii.eqb Bool.eqb]. rewrite andb_true_r. destruct opt; auto. }
  assert (P1 : props_of d' = props_of d) by (unfold props_of; rewrite GA; cbn [String.eqb Ascii.eqb Bool.eqb]; now rewrite andb_false_r).
  assert (R1 : required_of d' = if opt then [] else required_of d).
  { unfold required_of. rewrite GA. cbn [String.eqb Ascii.eqb Bool.eqb]. rewrite andb_true_r. now destruct opt. }
  assert (SD : sorted_keys (map fst d') = true) by (apply SG, (os_sorted _ _ HOs)).
  destruct (flatten_facts m d' (ks_shape _ _ _ _ K) HS' (sorted_NoDup _ SD) (ks_psorted _ _ _ _ K)) as (r & -> & F1 & F2 & F3 & F4 & F5 & F6).
  { rewrite P1. apply HOs. }
  exists r. split; [reflexivity|].
  assert (KEEP : forall c, c <> "allOf" -> ~ In c ["oneOf"; "anyOf"] -> mget c d = None -> mget c r = mget c m).
  { intros c0 C1 C2 HX. rewrite (F5 c0 C1 C2), GA, HX. destruct (opt && _); reflexivity. }
  assert (GP : forall k, mget k (props_of r) = match mget k (props_of d) with Some x => Some x | None => mget k (props_of m) end).
  { intros k. rewrite F2, mget_mappend_NoDup by (apply sorted_NoDup; rewrite P1; apply HOs). now rewrite P1. }
  assert (HT : forall k, mget k (props_of d) <> None -> takes f k) by (intros k Hk; apply TkFlat; [exact HFl|now apply (os_names _ _ HOs)]).
  assert (HG : forall g k, In g done -> takes g k -> mget k (props_of r) = mget k (props_of m)).
  { intros g k Hg Hk. rewrite GP. destruct (mget k (props_of d)) eqn:Ek; [|reflexivity]. exfalso. apply (HN g k Hg Hk). apply HT. congruence. }
  assert (HRI : forall x, In x (required_of m) -> In x (required_of r)) by (intros x Hx; rewrite F3; apply in_or_app; now left).
  split.
  - exact F1.
  - rewrite F5 by (try discriminate; intros [HX|[HX|[]]]; discriminate). rewrite GA. cbn [String.eqb Ascii.eqb Bool.eqb]. rewrite andb_false_r, (os_type _ _ HOs).
    unfold flatten_plain. rewrite (ks_type _ _ _ _ K). cbn [mem existsb String.eqb Ascii.eqb Bool.eqb orb]. apply K.
  - rewrite KEEP; [apply K|discriminate|intros [HX|[HX|[]]]; discriminate|apply HOs].
  - rewrite KEEP; [apply K|discriminate|intros [HX|[HX|[]]]; discriminate|apply HOs].
  - apply F6, K.
  - rewrite F2. apply sorted_mappend, K.
  - assert (HTk : forall k, In k kws -> tok <> k) by (intros k Hk; apply (in_used_neq tok tok_fresh); unfold used; apply in_or_app; now left).
    rewrite KEEP; [apply K|apply HTk; in_names| |exact (nt_room _ HNt)].
    intros [HX|[HX|[]]]; symmetry in HX; revert HX; apply HTk; in_names.
  - intros g Hg Hgf. apply in_app_or in Hg as [Hg|[<-|[]]]; [|congruence]. rewrite (HG g) by (auto; now constructor). now apply K.
  - intros g Hg Hgf HM. apply in_app_or in Hg as [Hg|[<-|[]]].
    + destruct (ks_flat _ _ _ _ K g Hg Hgf HM) as [HOp|(e & E1 & E2 & E3 & E5 & E6)]; [now left|]. right. exists e.
      do 3 (split; [assumption|]). split; [|auto]. intros k x Hk. rewrite (HG g k); auto. apply TkFlat; [exact Hgf|]. apply (os_names _ _ E3). congruence.
    + destruct (is_option (f_ty f)) eqn:EO; [now left|]. right. exists d. split; [exact HR|]. split; [exact HK|]. split; [exact HOs|].
      split; [intros k x Hk; now rewrite GP, Hk|].
      intros x Hx. rewrite F3, R1. unfold opt. cbn [andb]. apply in_or_app. now right.
  - intros g Hg Hgf HM. apply in_app_or in Hg as [Hg|[<-|[]]]; [|congruence]. destruct (ks_map _ _ _ _ K g Hg Hgf HM) as (vs & H1 & H2).
    exists vs. split; [|exact H2]. now rewrite F4, H1.
  - intros n Hn. rewrite GP in Hn. destruct (mget n (props_of d)) eqn:En.
    + exists f. split; [apply in_or_app; right; now left|]. apply HT. congruence.
    + destruct (ks_names _ _ _ _ K n Hn) as (g & Hg & Hk). exists g. split; [apply in_or_app; now left|exact Hk].
  - intros g Hg Hgf HOg. apply in_app_or in Hg as [Hg|[<-|[]]]; [|congruence]. apply HRI. now apply (ks_required _ _ _ _ K).
  - intros n Hn. rewrite F3, R1 in Hn. apply in_app_or in Hn as [Hn|Hn].
    + destruct (ks_all_required _ _ _ _ K n Hn) as (g & Hg & Hk). exists g. split; [apply in_or_app; now left|exact Hk].
    + exists f. split; [apply in_or_app; right; now left|]. apply TkFlat; [exact HFl|]. apply (os_required _ _ HOs). destruct opt; [destruct Hn|exact Hn].
  - intros x Hx. rewrite F3, R1 in Hx. apply in_app_or in Hx as [Hx|Hx]; [now apply (ks_strings _ _ _ _ K)|]. destruct opt; [destruct Hx|]. now apply (os_strings _ _ HOs).
  - intros HM. rewrite F4, (ks_deny _ _ _ _ K), HD, GA by (intros g Hg; apply HM; apply in_or_app; now left). cbn [String.eqb Ascii.eqb Bool.eqb]. rewrite andb_false_r. apply HOs.
Qed.


(** A flattened map *)
Lemma map_known def deny done m f s : known_struct def deny done m -> C (f_ty f) s -> f_flatten f = true -> deny = false -> flat_map items (f_ty f) ->
  (forall g, In g done -> f_flatten g = true -> is_map (f_ty g) = false) ->
  exists m', flatten (JObj m) (for_flatten s (is_option (f_ty f) && negb (f_required f))) = JObj m' /\ known_struct def deny (done ++ [f]) m'.
Proof.
  intros K HC HFl HD HFM HN. assert (HM : is_map (f_ty f) = true) by (destruct (f_ty f); contradiction || reflexivity).
  destruct HC as (((HR & HNt & HK) & _) & _ & _ & _ & HF & _). destruct (HF HM) as (vs & -> & HU). specialize (HU HFM).
  assert (HO : is_option (f_ty f) = false) by (destruct (f_ty f); discriminate || reflexivity). rewrite HO. cbn [andb].
  unfold obj at 1. set (d := mk [("type", JStr "object"); ("additionalProperties", vs)]).
  assert (GD : forall k, mget k d = if String.eqb k "type" then Some (JStr "object") else if String.eqb k "additionalProperties" then Some vs else None).
  { intros k. unfold d. rewrite mget_mk_NoDup by (repeat constructor; cbn; intuition discriminate). reflexivity. }
  assert (SHd : object_shape d).
  { clearbody d. split; [|split; [|split]]; [|rewrite GD; cbn; auto..]. intros k Hk. rewrite GD.
    destruct (String.eqb_spec k "type") as [->|]; [intros _; in_names|]. destruct (String.eqb_spec k "additionalProperties") as [->|]; [intros _; in_names|congruence]. }
  destruct (for_flatten_get d false SHd) as (d' & -> & G & SG); [now rewrite GD|now rewrite GD|]. cbn [andb] in G.
  assert (GA : forall k, mget k d' = mget k d).
  { intros k. rewrite G. destruct (mem k _ && _) eqn:EM; [|reflexivity]. exfalso. apply andb_prop in EM as [_ EM]. rewrite GD in EM.
    destruct (String.eqb k "type"); [discriminate|]. destruct (String.eqb k "additionalProperties"); [|discriminate]. now destruct vs as [|[]| | | |]. }
  assert (HS' : object_shape d').
  { destruct SHd as (K1 & K2 & K3 & K4). split; [|split; [|split]]; rewrite ?GA; auto. intros k Hk HX. rewrite GA in HX. auto. }
  assert (P1 : props_of d' = []) by (unfold props_of; now rewrite GA, GD).
  assert (R1 : required_of d' = []) by (unfold required_of; now rewrite GA, GD).
  assert (SD : sorted_keys (map fst d') = true) by (apply SG, sorted_mk).
  destruct (flatten_facts m d' (ks_shape _ _ _ _ K) HS' (sorted_NoDup _ SD) (ks_psorted _ _ _ _ K)) as (r & -> & F1 & F2 & F3 & F4 & F5 & F6).
  { now rewrite P1. }
  exists r. split; [reflexivity|]. rewrite P1 in F2. cbn in F2. rewrite R1, app_nil_r in F3.
  rewrite (ks_deny _ _ _ _ K HN), HD, GA, GD in F4. cbn [String.eqb Ascii.eqb Bool.eqb] in F4.
  assert (KEEP : forall c, c <> "allOf" -> ~ In c ["oneOf"; "anyOf"] -> mget c d = None -> mget c r = mget c m).
  { intros c0 C1 C2 HX. now rewrite (F5 c0 C1 C2), GA, HX. }
  split.
  - exact F1.
  - rewrite F5 by (try discriminate; intros [HX|[HX|[]]]; discriminate). rewrite GA, GD. cbn [String.eqb Ascii.eqb Bool.eqb].
    unfold flatten_plain. rewrite (ks_type _ _ _ _ K). cbn [mem existsb String.eqb Ascii.eqb Bool.eqb orb]. apply K.
  - rewrite KEEP; [apply K|discriminate|intros [HX|[HX|[]]]; discriminate|now rewrite GD].
  - rewrite KEEP; [apply K|discriminate|intros [HX|[HX|[]]]; discriminate|now rewrite GD].
  - apply F6, K.
  - rewrite F2. apply K.
  - assert (HTk : forall k, In k kws -> tok <> k) by (intros k Hk; apply (in_used_neq tok tok_fresh); unfold used; apply in_or_app; now left).
    rewrite KEEP; [apply K|apply HTk; in_names| |exact (nt_room _ HNt)].
    intros [HX|[HX|[]]]; symmetry in HX; revert HX; apply HTk; in_names.
  - intros g Hg Hgf. apply in_app_or in Hg as [Hg|[<-|[]]]; [|congruence]. rewrite F2. now apply K.
  - intros g Hg Hgf HMg. apply in_app_or in Hg as [Hg|[<-|[]]]; [|congruence].
    destruct (ks_flat _ _ _ _ K g Hg Hgf HMg) as [HOp|(e & E1 & E2 & E3 & E5 & E6)]; [now left|]. right. exists e.
    do 3 (split; [assumption|]). rewrite F2, F3. auto.
  - intros g Hg Hgf HMg. apply in_app_or in Hg as [Hg|[<-|[]]]; [rewrite (HN g) in HMg by auto; discriminate|]. exists vs. auto.
  - intros n Hn. rewrite F2 in Hn. destruct (ks_names _ _ _ _ K n Hn) as (g & Hg & Hk). exists g. split; [apply in_or_app; now left|exact Hk].
  - intros g Hg Hgf HOg. apply in_app_or in Hg as [Hg|[<-|[]]]; [|congruence]. rewrite F3. now apply (ks_required _ _ _ _ K).
  - intros n Hn. rewrite F3 in Hn. destruct (ks_all_required _ _ _ _ K n Hn) as (g & Hg & Hk). exists g. split; [apply in_or_app; now left|exact Hk].
  - intros x Hx. rewrite F3 in Hx. now apply (ks_strings _ _ _ _ K).
  - intros HX. rewrite HX in HM; [discriminate| |exact HFl]. apply in_or_app. right. now left.
Qed.

Lemma struct_fields_post def deny Q k : forall fs done m,
  (forall f, In f fs -> if f_flatten f then deny = false /\ readable_flat items f else readable_field wf_meta f) ->
  ForallOrdPairs (fun f g => forall k, takes f k -> takes g k -> False) (done ++ taken fs) ->
  ForallOrdPairs (fun g f => f_flatten g = true -> f_flatten f = true ->
    is_map (f_ty g) = false /\ (is_map (f_ty f) = true -> closed_struct items (f_ty g))) (done ++ taken fs) ->
  known_struct def deny done m ->
  (forall m', known_struct def deny (done ++ taken fs) m' -> post Q (k (JObj m'))) ->
  post Q (struct_fields def Deserialize fs (JObj m) k).
Proof.
  induction fs as [|f fs IH]; intros done m HW ND ML K H; cbn [struct_fields].
  { apply H. cbn. now rewrite app_nil_r. }
  unfold taken in H, ND, ML. cbn [filter] in H, ND, ML. fold (taken fs) in H, ND, ML. cbn [included].
  pose proof (HW f (or_introl eq_refl)) as HM.
  destruct (negb (f_skip_de f)) eqn:ES; cbn [negb].
  - assert (HA : apart done f).
    { intros g n Hg H1 H2. refine (ordpairs_app _ _ _ ND g f Hg _ n H1 H2). now left. }
    assert (HNext : forall m', known_struct def deny (done ++ [f]) m' -> post Q (struct_fields def Deserialize fs (JObj m') k)).
    { intros m' K'. apply (IH (done ++ [f]) m').
      + intros g Hg. apply HW. now right.
      + now rewrite <- app_assoc.
      + now rewrite <- app_assoc.
      + exact K'.
      + intros m2 K2. apply H. now rewrite <- app_assoc in K2. }
    destruct (f_flatten f) eqn:EF.
    + destruct HM as [HD [_ HO]]. cbn [Derivation.post]. intros s HC. destruct HO as [HO|HO].
      2: { assert (HC' : C (f_ty f) s) by (destruct (f_ty f); try contradiction; exact HC).
           destruct (map_known def deny done m f s K HC' EF HD HO) as (m' & -> & K'); [|now apply HNext].
           intros g Hg Hgf. refine (proj1 (ordpairs_app _ _ _ ML g f Hg (or_introl eq_refl) Hgf EF)). }
      destruct (flat_known def deny done m f s K HC EF HD HO HA) as (m' & -> & K'). now apply HNext.
    + apply field_post; [exact HM|]. intros s Hs. cbn [name_for].
      destruct (declare_known def deny done m f s K Hs EF HA) as (m' & -> & K'). now apply HNext.
  - apply (IH done m); auto. intros g Hg. apply HW. now right.
Qed.

Lemma struct_prog_post def deny Q k fs :
  (forall f, In f fs -> if f_flatten f then deny = false /\ readable_flat items f else readable_field wf_meta f) -> own_keys items fs -> map_last items fs ->
  (forall m', known_struct def deny (taken fs) m' -> post Q (k (JObj m'))) ->
  post Q (struct_prog def deny Deserialize fs k).
Proof.
  intros HW ND ML H. unfold struct_prog, obj. apply (struct_fields_post def deny Q k fs []); auto.
  assert (HM : forall k, mget k (mk (("type", JStr "object") :: if deny then [("additionalProperties", JBool false)] else []))
     = mget k (("type", JStr "object") :: if deny then [("additionalProperties", JBool false)] else [])).
  { intros n. apply mget_mk_NoDup. destruct deny; repeat constructor; cbn; intuition discriminate. }
  split.
  - split; [|split; [|split]]; try (rewrite HM; destruct deny; cbn; auto; fail).
    intros n _. rewrite HM. cbn [mget]. destruct (String.eqb_spec n "type") as [->|]; [cbn; auto|].
    destruct deny; cbn [mget]; [|congruence]. destruct (String.eqb_spec n "additionalProperties") as [->|]; [cbn; auto|congruence].
  - now rewrite HM.
  - rewrite HM. now destruct deny.
  - rewrite HM. now destruct deny.
  - apply sorted_mk.
  - unfold props_of. rewrite HM. now destruct deny.
  - apply fresh_mk; [exact tok_fresh|]. destruct deny; reflexivity.
  - intros f [].
  - intros f [].
  - intros f [].
  - intros n Hn. exfalso. apply Hn. unfold props_of. rewrite HM. now destruct deny.
  - intros f [].
  - intros n Hn. unfold required_of in Hn. rewrite HM in Hn. destruct deny; destruct Hn.
  - intros n Hn. unfold required_of in Hn. rewrite HM in Hn. destruct deny; destruct Hn.
  - intros _. rewrite HM. now destruct deny.
Qed.

(** ** Styles *)
Definition style_known (def deny : bool) (s : style X) (c : json) : Prop :=
  neat c /\ ((forall f, s <> Newtype f) -> usable c = true)
  /\ (forall fs, s = Struct fs -> deny = false -> exists m, c = JObj m /\ known_struct def false (taken fs) m) /\ forall j, instance j -> below j -> whole (style_passes s) j -> ok_ c j = true -> reads_style items text_ok def deny s j.

Lemma neat_tuple_struct ss : neat (tuple_struct_schema ss).
Proof.
  assert (T : forall k, In k ["type"; "prefixItems"; "minItems"; "maxItems"] -> tok <> k /\ "const" <> k).
  { intros k Hk. split; [apply (in_used_neq tok tok_fresh)|]; cbn in Hk; intuition subst; try discriminate; in_names. }
  unfold tuple_struct_schema. split; [reflexivity| |]; cbn [ensure_obj ensure_object];
  [change (mget tok (mset "maxItems" (jz (Z.of_nat (List.length ss))) (match ss with [] => mk [("type", JStr "array")] | _ => mset "minItems" (jz (Z.of_nat (List.length ss))) (mset "prefixItems" (JArr ss) (mk [("type", JStr "array")])) end)) = None)
  |change (mget "const" (mset "maxItems" (jz (Z.of_nat (List.length ss))) (match ss with [] => mk [("type", JStr "array")] | _ => mset "minItems" (jz (Z.of_nat (List.length ss))) (mset "prefixItems" (JArr ss) (mk [("type", JStr "array")])) end)) = None)];
  destruct ss; rewrite !mget_mset; cbn [mk mappend fold_left fst snd mset mget];
  repeat match goal with |- context [String.eqb tok ?b] =>
    let Q := fresh in destruct (String.eqb_spec tok b) as [Q|_]; [exfalso; exact (proj1 (T b ltac:(cbn; auto 6)) Q)|] end; reflexivity.
Qed.

Lemma known_neat def deny done m : known_struct def deny done m -> neat (JObj m).
Proof.
  intros K. split; [reflexivity|apply K|]. change (mget "const" m = None). destruct (mget "const" m) eqn:EC; [|reflexivity]. exfalso.
  destruct (ks_shape _ _ _ _ K) as (S1 & _). assert (HI : In "const" object_keywords) by (apply S1; [in_names|congruence]).
  cbn in HI. intuition discriminate.
Qed.

Lemma style_post def deny s Q k : readable_style items wf_meta deny s -> (forall c, style_known def deny s c -> post Q (k c)) ->
  post Q (style_prog def deny Deserialize s k).
Proof.
  intros HR H. destruct s as [|f|fs|fs]; cbn [style_prog readable_style] in *.
  - unfold unit_prog. cbn [Derivation.post]. intros c [(HU & HN & HK) [HE _]]. apply H. split; [exact HN|]. split; [intros _; now rewrite (HE eq_refl)|]. split; [discriminate|]. intros j HI HB HWh HV.
    rewrite (HE eq_refl), valid_type_schema in HV. destruct j; try discriminate. constructor.
  - destruct HR as [HS HM]. apply field_post; [exact HM|]. intros c (HRf & HN & HK). apply H. split; [exact HN|]. split; [intros HX; now elim (HX f)|]. split; [discriminate|]. intros j HI HB HWh HV.
    destruct (HK j) as [HV1 HV2]; [apply HWh; [exact HRf|reflexivity|lia|exact HI]|exact HV|]. now constructor.
  - apply tuple_fields_post; [exact HR|]. intros ss Hss. apply H. split; [apply neat_tuple_struct|]. split; [reflexivity|]. split; [discriminate|]. intros j HI HB HWh HV.
    rewrite valid_tuple_struct in HV. destruct j as [| | | |l|]; try discriminate.
    destruct (pairwise_reads (taken fs) ss l Hss HV) as [HL1 HL2]; [|now constructor].
    intros f x HRf Hx. apply HB; [exact HRf|now apply depth_elem|eapply instance_elem; eauto].
  - destruct HR as (HM & ND & ML). apply struct_prog_post; [exact HM|exact ND|exact ML|]. intros m K. apply H. split; [eapply known_neat; eauto|]. split; [reflexivity|]. split; [intros fs' [= <-] ->; eauto|].
    intros j HI HB HWh HV. eapply struct_reads; eauto.
Qed.

(** ** Variants *)
Definition variant_known (deny : bool) (tg : tagging) (v : variant X) (c : json) : Prop :=
  is_schema c = true /\ forall j, instance j -> below j ->
    whole (fun w => whole_contents tg v /\ style_passes (v_style v) w) j -> ok_ c j = true ->
    reads_variant items text_ok deny tg v j.

Lemma below_value j x : instance j -> below j -> depth x < depth j -> instance x -> below x /\ forall p, whole p x.
Proof.
  intros HI HB HD HX. split.
  - intros w y HR HL HY. apply HB; auto. lia.
  - intros p w y HR _ HL HY. apply HB; auto. lia.
Qed.

Lemma object_parts m j : mget "type" m = Some (JStr "object") -> ok_ (JObj m) j = true ->
  exists o, j = JObj o
  /\ (forall ps k s x, mget "properties" m = Some (JObj ps) -> mget k ps = Some s -> In (k, x) o -> ok_ s x = true)
  /\ (forall l n, mget "required" m = Some (JArr l) -> In (JStr n) l -> exists x, mget n o = Some x)
  /\ (forall ps, mget "properties" m = Some (JObj ps) -> mget "patternProperties" m = None ->
        mget "additionalProperties" m = Some (JBool false) -> forall k x, In (k, x) o -> mget k ps <> None).
Proof.
  intros HT HV. pose proof (kw_present E m _ _ _ HV HT) as H1. change (chk_type D2020 (Some (JStr "object")) None j = true) in H1.
  rewrite chk_type_str in H1. destruct (type_object _ H1) as [o ->]. exists o. split; [reflexivity|]. split; [|split].
  - intros ps k s x HP Hk Hx. pose proof (kw_present E m _ _ _ HV HP) as H2. unfold kw in H2.
    cbn [String.eqb Ascii.eqb Bool.eqb existsb assertion_names orb] in H2. rewrite chk_props_ok in H2. cbn [props_ok] in H2.
    rewrite forallb_forall in H2. specialize (H2 _ Hx). cbn [fst snd] in H2. now rewrite Hk in H2.
  - intros l n HR Hn. pose proof (kw_present E m _ _ _ HV HR) as H2. change (required_ok l (JObj o) = true) in H2. cbn [required_ok] in H2.
    rewrite forallb_forall in H2. specialize (H2 _ Hn). cbn in H2. unfold mhas in H2. destruct (mget n o) as [x|]; [eauto|discriminate].
  - intros ps HP HPP HA k x Hx HN. pose proof (kw_present E m _ _ _ HV HA) as H2. unfold kw in H2.
    cbn [String.eqb Ascii.eqb Bool.eqb existsb assertion_names orb] in H2. unfold chk_additional in H2. rewrite forallb_forall in H2.
    specialize (H2 _ Hx). cbn [fst snd] in H2. rewrite in_props_of in H2 by (right; eauto). unfold subk in H2. rewrite HPP in H2.
    unfold props_of in H2. rewrite HP in H2. unfold mhas in H2. rewrite HN in H2. cbn in H2. discriminate.
Qed.

Lemma open_get w m m' : open_schema w m -> sorted_keys (map fst m') = true -> (forall k, In k kws \/ In k ctx -> mget k m' = mget k m) -> open_schema w m'.
Proof.
  intros [A1 A2 A3 A4 A5 A6 A7 A8 A9 A10] HS HG.
  assert (P : props_of m' = props_of m) by (unfold props_of; rewrite HG; [reflexivity|left; in_names]).
  assert (Rq : required_of m' = required_of m) by (unfold required_of; rewrite HG; [reflexivity|left; in_names]).
  split; rewrite ?P, ?Rq; auto.
  - destruct A1 as (K1 & K2 & K3 & K4). split; [|split; [|split]].
    + intros k Hk HN. rewrite HG in HN by auto. auto.
    + rewrite HG by (left; in_names). auto.
    + rewrite HG by (left; in_names). auto.
    + rewrite HG by (left; in_names). auto.
  - rewrite HG by (left; in_names). auto.
  - rewrite HG by (right; in_names). auto.
  - rewrite HG by (right; in_names). auto.
  - rewrite HG by (left; in_names). auto.
Qed.
Lemma open_meta w l m : wf_meta l -> open_schema w m -> exists m', insert_all l (JObj m) = JObj m' /\ open_schema w m' /\ forall v, ok_ (JObj m') v = ok_ (JObj m) v.
Proof.
  intros HW HO. assert (HX : exists m', insert_all l (JObj m) = JObj m' /\ open_schema w m').
  { revert m HO. induction l as [|[k x] l IH]; intros m HO; [now exists m|]. rewrite insert_all_cons.
    unfold insert. cbn [fst snd ensure_obj ensure_object]. apply IH.
    - intros k' x' Hin. apply (HW k' x'). now right.
    - apply (open_get w m); [exact HO|apply sorted_mset, HO|]. intros k' Hk. rewrite mget_mset. destruct (String.eqb_spec k' k) as [->|]; [|reflexivity].
      destruct (HW k x (or_introl eq_refl)) as [[A1 A2] _]. destruct Hk; contradiction. }
  destruct HX as (m' & HE & HO'). exists m'. split; [exact HE|]. split; [exact HO'|]. intros v. rewrite <- HE. now apply (valid_insert_all E tok).
Qed.

(** What annotations leave as it is *)
Lemma words_ext m m' v : (forall k, In k kws \/ In k ctx -> mget k m = mget k m') -> ok_ (JObj m) v = ok_ (JObj m') v.
Proof.
  intros H. rewrite !valid_forallb.
  assert (HX : forall l, (forall k, In k l -> In k kws) -> forallb (fun k => kw_all E m k v) l = forallb (fun k => kw_all E m' k v) l).
  { induction l as [|k l IH]; intros HL; [reflexivity|]. cbn [forallb]. rewrite IH by (intros c Hc; apply HL; now right). f_equal.
    unfold kw_all. rewrite (H k) by (left; apply HL; now left). destruct (mget k m'); [|reflexivity]. apply kw_ext. auto. }
  apply HX. auto.
Qed.
Definition same_words (m m' : map_t) : Prop := forall k, In k kws \/ In k ctx -> mget k m' = mget k m.
Lemma mutators_words (f : field X) m : wf_meta (f_meta f) -> no_checks (f_valid f) ->
  exists m', field_mutators f (JObj m) = JObj m' /\ same_words m m' /\ (sorted_keys (map fst m) = true -> sorted_keys (map fst m') = true).
Proof.
  intros HW HNo. unfold field_mutators. rewrite no_mutators by exact HNo.
  assert (HI : forall k x m m0, annotation k -> same_words m0 m /\ (sorted_keys (map fst m0) = true -> sorted_keys (map fst m) = true) ->
     exists m', insert k x (JObj m) = JObj m' /\ same_words m0 m' /\ (sorted_keys (map fst m0) = true -> sorted_keys (map fst m') = true)).
  { intros k x m1 m0 [A1 A2] [HS HSo]. eexists. split; [reflexivity|]. cbn [ensure_obj ensure_object]. split.
    - intros k' Hk. change (mget k' (mset k x m1) = mget k' m0). rewrite mget_mset. destruct (String.eqb_spec k' k) as [->|]; [destruct Hk; contradiction|now apply HS].
    - intros H. apply sorted_mset. auto. }
  assert (HX : exists m', insert_all (f_meta f) (JObj m) = JObj m' /\ same_words m m' /\ (sorted_keys (map fst m) = true -> sorted_keys (map fst m') = true)).
  { assert (HG : forall l m1, wf_meta l -> same_words m m1 /\ (sorted_keys (map fst m) = true -> sorted_keys (map fst m1) = true) ->
      exists m', insert_all l (JObj m1) = JObj m' /\ same_words m m' /\ (sorted_keys (map fst m) = true -> sorted_keys (map fst m') = true)).
    { induction l as [|[k x] l IH]; intros m1 Hl H1; [exists m1; tauto|]. rewrite insert_all_cons. cbn [fst snd].
      destruct (Hl k x (or_introl eq_refl)) as [HAn _]. destruct (HI k x m1 m HAn H1) as (m2 & -> & H2). apply IH; [|exact H2].
      intros k' x' Hin. apply (Hl k' x'). now right. }
    apply HG; [exact HW|]. split; [intros k _; reflexivity|auto]. }
  destruct HX as (m1 & -> & H1). destruct default_ann as (_ & A1 & A2).
  destruct (f_skip_de f), (f_skip_ser f).
  - destruct (HI "readOnly" (JBool true) m1 m A1 H1) as (m2 & -> & H2). now apply HI.
  - now apply HI.
  - now apply HI.
  - now exists m1.
Qed.
Lemma open_mutators w (f : field X) m : wf_meta (f_meta f) -> no_checks (f_valid f) -> open_schema w m ->
  exists m', field_mutators f (JObj m) = JObj m' /\ open_schema w m' /\ forall v, ok_ (JObj m') v = ok_ (JObj m) v.
Proof.
  intros HW HNo HO. destruct (mutators_words f m HW HNo) as (m' & HE & HS & HSo). exists m'. split; [exact HE|]. split.
  - apply (open_get w m); [exact HO|apply HSo, HO|exact HS].
  - intros v. apply words_ext. exact HS.
Qed.
Lemma tagged_ref tag name deny m r j : same_words [("$ref", JStr r)] m -> ok_ (apply_internal_tag tag name deny (JObj m)) j = true ->
  exists o, j = JObj o /\ mget tag o = Some (JStr name) /\ ok_ (new_ref r) j = true.
Proof.
  intros HS HV.
  assert (HN : forall k, In k kws -> k <> "$ref" -> mget k m = None).
  { intros k Hk Hn. rewrite HS by now left. cbn. destruct (String.eqb_spec k "$ref"); [contradiction|reflexivity]. }
  unfold apply_internal_tag in HV. cbn [ensure_obj ensure_object] in HV. change (ensure_obj (JObj m)) with m in HV.
  rewrite (HN "type") in HV by (in_names || discriminate). rewrite andb_false_r in HV.
  match type of HV with ok_ (JObj ?x) _ = _ => set (m' := x) in HV end.
  assert (G : forall k, mget k m' = if String.eqb k "required" then Some (JArr [JStr tag])
     else if String.eqb k "properties" then Some (JObj [(tag, tag_schema name)])
     else if String.eqb k "type" then Some (JStr "object") else mget k m).
  { intros k. unfold m'. rewrite !entry_get, !mget_mset. cbn [String.eqb Ascii.eqb Bool.eqb].
    rewrite (HN "required"), (HN "properties") by (in_names || discriminate). reflexivity. }
  assert (HR : mget "$ref" m' = Some (JStr r)) by (rewrite G; cbn [String.eqb Ascii.eqb Bool.eqb]; rewrite HS by (left; in_names); reflexivity).
  pose proof (kw_present E m' _ _ _ HV HR) as HRf.
  apply object_parts in HV; [|now rewrite G]. destruct HV as (o & -> & HP & HQ & _). exists o. split; [reflexivity|]. split.
  - destruct (HQ [JStr tag] tag) as (x & Hx); [now rewrite G|now left|].
    assert (HX : ok_ (tag_schema name) x = true).
    { eapply HP; [now rewrite G| |apply mget_In; exact Hx]. cbn. now rewrite String.eqb_refl. }
    rewrite tag_schema_sem in HX. apply jeq_str in HX. now subst x.
  - unfold new_ref. rewrite valid_entries by (repeat constructor; intros []). cbn [forallb fst snd]. rewrite andb_true_r. exact HRf.
Qed.

Lemma untagged_post deny tg v Q k : readable_variant items wf_meta deny tg v -> tg = Untagged \/ v_untagged v = true ->
  (forall c, neat c -> variant_known deny tg v c -> post Q (k c)) -> post Q (untagged_variant deny Deserialize v true k).
Proof.
  intros (HM & HR & _) HT H. unfold untagged_variant. apply style_post; [exact HR|]. intros c (HN & _ & _ & HK). apply H; [now apply neat_insert_all|].
  split; [apply nt_schema, neat_insert_all; auto|]. intros j HI HB HW HV. rewrite (valid_insert_all E tok) in HV by (auto; now apply nt_schema).
  apply RvUntagged; [exact HT|]. apply HK; auto. intros w x HRw Hw. apply HW; [exact HRw|]. split; [|exact Hw]. unfold whole_contents. tauto.
Qed.

Lemma external_inv name c j : instance j -> ok_ (new_externally_tagged_enum_variant name c) j = true ->
  exists x, j = JObj [(name, x)] /\ ok_ c x = true.
Proof.
  intros HI HV. unfold new_externally_tagged_enum_variant, obj in HV.
  apply object_parts in HV; [|reflexivity]. destruct HV as (o & -> & HP & HQ & HA).
  destruct (HQ _ name eq_refl (or_introl eq_refl)) as (x & Hx). exists x.
  assert (HO : o = [(name, x)]).
  { assert (HAll : forall k y, In (k, y) o -> k = name).
    { intros k y Hy. pose proof (HA _ eq_refl eq_refl eq_refl k y Hy) as HX. cbn in HX. destruct (String.eqb_spec k name); congruence. }
    pose proof (instance_nodup _ HI) as ND. destruct o as [|[k1 y1] [|[k2 y2] o']]; [discriminate| |].
    - pose proof (HAll k1 y1 (or_introl eq_refl)). subst k1. cbn in Hx. rewrite String.eqb_refl in Hx. congruence.
    - exfalso. pose proof (HAll k1 y1 (or_introl eq_refl)). pose proof (HAll k2 y2 (or_intror (or_introl eq_refl))). subst k1 k2.
      inversion ND as [|a b N1 N2]. apply N1. now left. }
  split; [now rewrite HO|]. eapply HP; [reflexivity| |rewrite HO; now left]. cbn. now rewrite String.eqb_refl.
Qed.

Lemma unit_style (v : variant X) : v_is_unit v = true <-> v_style v = Unit.
Proof. unfold v_is_unit. destruct (v_style v); split; congruence. Qed.

Lemma external_post deny v Q k : readable_variant items wf_meta deny External v ->
  (forall c, variant_known deny External v c -> post Q (k c)) -> post Q (external_variant deny Deserialize v k).
Proof.
  intros HRv H. unfold external_variant. destruct (v_untagged v) eqn:EU; [apply (untagged_post deny External); auto|].
  destruct HRv as (HM & HR & _). unfold v_name. cbn [name_for]. destruct (v_is_unit v) eqn:ES.
  - apply unit_style in ES. apply H. split; [now apply schema_insert_all|]. intros j HI HB HW HV. rewrite (valid_insert_all E tok) in HV by auto.
    unfold new_unit_enum_variant in HV. fold (tag_schema (v_de v)) in HV. rewrite tag_schema_sem in HV. apply jeq_str in HV. subst j.
    now constructor.
  - assert (ES' : v_style v <> Unit) by (rewrite <- unit_style; congruence).
    unfold untagged_variant. apply style_post; [exact HR|]. intros c (HN & _ & _ & HK). apply H. split; [now apply schema_insert_all|].
    intros j HI HB HW HV. rewrite (valid_insert_all E tok) in HV by auto. apply external_inv in HV; [|exact HI]. destruct HV as (x & -> & HV).
    assert (HIn : In (v_de v, x) [(v_de v, x)]) by now left.
    pose proof (instance_value _ _ _ HI HIn) as HX.
    destruct (below_value _ x HI HB (depth_value _ _ _ HIn) HX) as [HB' HW']. apply RvExternal; [exact EU|exact ES'|]. apply HK; auto.
Qed.

Lemma internal_post deny tag v Q k : readable_variant items wf_meta deny (Internal tag) v ->
  (forall c, variant_known deny (Internal tag) v c -> post Q (k c)) -> post Q (internal_variant items deny Deserialize tag v k).
Proof.
  intros HRv H. unfold internal_variant. destruct (v_untagged v) eqn:EU; [apply (untagged_post deny (Internal tag)); auto|].
  destruct HRv as (HM & HR & HT). specialize (HT EU). unfold v_name. cbn [name_for]. destruct (v_style v) as [|f|fs|fs] eqn:ES; try contradiction.
  - unfold unit_prog. cbn [Derivation.post]. intros c [(HU & HN & _) HE]. rewrite (proj1 HE eq_refl). apply H. split; [now apply schema_insert_all|].
    intros j HI HB HW HV. rewrite (valid_insert_all E tok) in HV by auto. apply tag_sem_unit in HV; [|apply HI].
    destruct HV as (o & -> & HG & _). now apply RvInternalUnit.
  - destruct HT as (HNo & HO & HTk). destruct HR as [HSk HRf].
    assert (HTy : f_read f = f_ty f) by (unfold f_read; destruct HO as (i & cs & ts & def & fs & HX & _); rewrite HX; now destruct (f_required f)).
    assert (HMeet : forall x, meets text_ok (f_valid f) x = true).
    { intros x. apply (cf_meets _ _ HFm). unfold no_checks in HNo. rewrite HNo. cbn. now destruct x. }
    assert (INL : forall m, open_schema (f_ty f) m -> R (f_ty f) -> known (f_ty f) (JObj m) ->
       post Q (k (insert_all (v_meta v) (apply_internal_tag tag (v_de v) deny (field_mutators f (JObj m)))))).
    { intros m HOs HRm HK. destruct (open_mutators (f_ty f) f m (proj1 HRf) HNo HOs) as (m' & -> & HOs' & HV'). apply H.
      split; [now apply schema_insert_all|]. intros j HI HB HW HV. rewrite (valid_insert_all E tok) in HV by auto.
      apply tag_sem_struct in HV; [|apply HOs'|apply HOs'| | |apply HI].
      - destruct HV as (o & -> & HG & HV). eapply RvInternalNewtype; eauto. apply HK; [|now rewrite <- HV'].
        apply HW; [exact HRm| |apply depth_mdel|now apply instance_mdel]. split; [right; right; eauto|]. rewrite ES. now symmetry.
      - destruct (mget tag (props_of m')) eqn:EP; [|reflexivity]. exfalso. apply HTk. apply (os_names _ _ HOs'). congruence.
      - intros HX. apply HTk. now apply (os_required _ _ HOs'). }
    destruct (f_required f) eqn:EQ.
    + unfold field_schema. rewrite EQ. cbn [Derivation.post]. unfold f_read in HTy. rewrite EQ in HTy. rewrite HTy. intros s (HA & _ & _ & HF).
      destruct (proj1 HF HO) as (m & -> & HOs). apply INL; [exact HOs|apply HA|apply HA].
    + cbn [Derivation.post]. intros s (HA & _ & _ & HF). destruct (proj1 HF HO) as (m & -> & HOs).
      unfold for_internal_newtype. rewrite immediate_none.
      2:{ intros c Hc. cbn in Hc.
          assert (HAb : forall c, In c kws -> ~ In c object_keywords -> mget c m = None).
          { intros c' Hc' Ho. apply shape_absent; auto. apply HOs. }
          repeat (destruct Hc as [<-|Hc]; [first [apply (os_then _ _ HOs)|apply (os_else _ _ HOs)
            |apply HAb; [in_names|intros HX; cbn in HX; repeat (destruct HX as [HX|HX]; [discriminate|]); exact HX]]|]). destruct Hc. }
      set (inl := type_inline items (f_ty f) || _ || _ || _ || _ || _). destruct inl; [apply INL; [exact HOs|apply HA|apply HA]|]. cbn [Derivation.post].
      intros a ((HRa & _ & HKa) & _ & _ & HSt'). destruct (proj1 HSt' HO) as [(r & ->)|(m' & -> & HOs')]; [|now apply INL].
      destruct (mutators_words f [("$ref", JStr r)] (proj1 HRf) HNo) as (m' & HE & HSw & _). unfold new_ref at 1. rewrite HE. apply H.
      split; [now apply schema_insert_all|]. intros j HI HB HW HV. rewrite (valid_insert_all E tok) in HV by auto.
      destruct (tagged_ref tag (v_de v) deny m' r j HSw HV) as (o & -> & HG & HV'). eapply RvInternalNewtype; eauto.
      apply (reads_mdel items text_ok tag (f_ty f) (JObj o)); auto; [|now apply open_lax]. apply HKa; [|exact HV'].
      apply HW; [exact HRa| |lia|exact HI]. split; [right; right; eauto|]. rewrite ES. now symmetry.
  - cbn [readable_style] in HR. destruct HR as (HMf & ND & ML). apply struct_prog_post; [exact HMf|exact ND|exact ML|]. intros m K. apply H.
    split; [now apply schema_insert_all|]. intros j HI HB HW HV. rewrite (valid_insert_all E tok) in HV by auto.
    apply tag_sem_struct in HV; [| | | | |apply HI].
    + destruct HV as (o & -> & HG & HV). eapply RvInternalStruct; eauto. eapply struct_reads; eauto.
      * now apply instance_mdel.
      * intros w x HRw HD HX. apply HB; auto. pose proof (depth_mdel tag o). lia.
      * intros w x HRw Hw HD HX. apply HW; auto; [|pose proof (depth_mdel tag o); lia]. split; [right; right; eauto|]. now rewrite ES.
    + apply K.
    + apply K.
    + destruct (mget tag (props_of m)) eqn:EP; [|reflexivity]. exfalso. destruct (ks_names _ _ _ _ K tag) as (f & Hf & Hk); [congruence|]. exact (HT f Hf Hk).
    + intros HX. destruct (ks_all_required _ _ _ _ K tag HX) as (f & Hf & Hk). exact (HT f Hf Hk).
Qed.

Lemma adjacent_get (deny : bool) tag content name (sub : option json) n :
  mget n (mk ([("type", JStr "object");
        ("properties", obj ((tag, obj [("type", JStr "string"); ("const", JStr name)])
                            :: match sub with Some s => [(content, s)] | None => [] end));
        ("required", JArr (JStr tag :: match sub with Some _ => [JStr content] | None => [] end))]
       ++ if deny then [("additionalProperties", JBool false)] else [])%list)
  = mget n ([("type", JStr "object");
        ("properties", obj ((tag, obj [("type", JStr "string"); ("const", JStr name)])
                            :: match sub with Some s => [(content, s)] | None => [] end));
        ("required", JArr (JStr tag :: match sub with Some _ => [JStr content] | None => [] end))]
       ++ if deny then [("additionalProperties", JBool false)] else [])%list.
Proof. apply mget_mk_NoDup. destruct deny; repeat constructor; cbn; intuition discriminate. Qed.

Lemma adjacent_inv deny tag content name sub j : tag <> content -> instance j -> ok_ (adjacent_schema deny tag content name sub) j = true ->
  exists o, j = JObj o /\ mget tag o = Some (JStr name)
  /\ (forall s, sub = Some s -> exists x, mget content o = Some x /\ ok_ s x = true)
  /\ (deny = true -> forall k x, In (k, x) o -> k = tag \/ (k = content /\ sub <> None)).
Proof.
  intros HTC HI HV. unfold adjacent_schema, obj at 1 in HV. apply object_parts in HV; [|now rewrite adjacent_get].
  destruct HV as (o & -> & HP & HQ & HA). exists o. split; [reflexivity|].
  assert (HP' := fun k s x => HP _ k s x (eq_trans (adjacent_get _ _ _ _ _ _) eq_refl)). clear HP. rename HP' into HP.
  assert (HG : forall k, mget k (mk ((tag, obj [("type", JStr "string"); ("const", JStr name)]) :: match sub with Some s => [(content, s)] | None => [] end))
     = mget k ((tag, obj [("type", JStr "string"); ("const", JStr name)]) :: match sub with Some s => [(content, s)] | None => [] end)).
  { intros k. apply mget_mk_NoDup. destruct sub; repeat constructor; cbn; intuition congruence. }
  split; [|split].
  - destruct (HQ (JStr tag :: match sub with Some _ => [JStr content] | None => [] end) tag) as (x & Hx); [now rewrite adjacent_get|now left|].
    assert (HX : ok_ (tag_schema name) x = true).
    { eapply HP; [|apply mget_In; exact Hx]. rewrite HG. cbn [mget]. now rewrite String.eqb_refl. }
    rewrite tag_schema_sem in HX. apply jeq_str in HX. now subst x.
  - intros s ->. destruct (HQ [JStr tag; JStr content] content) as (x & Hx); [exact (eq_trans (adjacent_get deny tag content name (Some s) _) eq_refl)|cbn; auto|]. exists x. split; [exact Hx|].
    eapply HP; [|apply mget_In; exact Hx]. rewrite HG. cbn [mget]. destruct (String.eqb_spec content tag); [congruence|]. now rewrite String.eqb_refl.
  - intros -> k x Hx. pose proof (HA _ (eq_trans (adjacent_get true tag content name sub _) eq_refl) (eq_trans (adjacent_get true tag content name sub _) eq_refl) (eq_trans (adjacent_get true tag content name sub _) eq_refl) k x Hx) as HN. rewrite HG in HN. cbn [mget] in HN.
    destruct (String.eqb_spec k tag); [auto|]. destruct sub; [|contradiction]. cbn [mget] in HN. destruct (String.eqb_spec k content); [|contradiction].
    right. split; [assumption|discriminate].
Qed.

Lemma adjacent_post deny tag content v Q k : readable_variant items wf_meta deny (Adjacent tag content) v ->
  (forall c, variant_known deny (Adjacent tag content) v c -> post Q (k c)) -> post Q (adjacent_variant deny Deserialize tag content v k).
Proof.
  intros HRv H. unfold adjacent_variant. destruct (v_untagged v) eqn:EU; [apply (untagged_post deny (Adjacent tag content)); auto|].
  destruct HRv as (HM & HR & HT). destruct (HT EU) as [HTC HD]. unfold v_name. cbn [name_for]. destruct (v_is_unit v) eqn:ES.
  - apply unit_style in ES. specialize (HD ES). apply H. split; [now apply schema_insert_all|]. intros j HI HB HW HV. rewrite (valid_insert_all E tok) in HV by auto.
    apply adjacent_inv in HV; [|exact HTC|exact HI]. destruct HV as (o & -> & HG & _ & HA). specialize (HA HD).
    apply RvAdjacentUnit; auto.
    + left. destruct (mget content o) eqn:EC; [|reflexivity]. exfalso. apply mget_In in EC. destruct (HA _ _ EC) as [Hc|[_ Hc]]; congruence.
    + intros _ k' x Hx. destruct (HA _ _ Hx) as [|[_ Hc]]; [auto|congruence].
  - assert (ES' : v_style v <> Unit) by (rewrite <- unit_style; congruence).
    unfold untagged_variant. apply style_post; [exact HR|]. intros c (HN & _ & _ & HK). apply H. split; [now apply schema_insert_all|].
    intros j HI HB HW HV. rewrite (valid_insert_all E tok) in HV by auto. apply adjacent_inv in HV; [|exact HTC|exact HI].
    destruct HV as (o & -> & HG & HS & HA). destruct (HS c eq_refl) as (x & Hx & HV). pose proof (mget_In _ _ _ Hx) as HIn.
    pose proof (instance_value _ _ _ HI HIn) as HX.
    destruct (below_value _ x HI HB (depth_value _ _ _ HIn) HX) as [HB' HW']. eapply RvAdjacent; eauto.
    intros HDn k' y Hy. destruct (HA HDn _ _ Hy) as [|[? _]]; auto.
Qed.

(** ** Enums *)
Definition taken_variants (vs : list (variant X)) : list (variant X) := filter (fun v => negb (v_skip_de v)) vs.
Lemma variants_post deny tg one vs Q : (forall v (k : json -> prog), In v vs ->
    (forall c, variant_known deny tg v c -> post Q (k c)) -> post Q (one v k)) ->
  forall k, (forall ss, Forall2 (variant_known deny tg) (taken_variants vs) ss -> post Q (k ss)) -> post Q (variants Deserialize one vs k).
Proof.
  intros HO. induction vs as [|v vs IH]; intros k H; cbn [variants]; [apply H; constructor|]. cbn [included].
  unfold taken_variants in H. cbn [filter] in H. fold (taken_variants vs) in H. destruct (negb (v_skip_de v)).
  - apply HO; [now left|]. intros c Hc. apply IH; [intros v' k' Hv'; apply HO; now right|]. intros ss Hss. apply H. now constructor.
  - apply IH; [intros v' k' Hv'; apply HO; now right|exact H].
Qed.

Lemma one_accepts u (vs : list (variant X)) ss j : ok_ (variant_schemas u vs ss) j = true -> exists c, In c ss /\ ok_ c j = true.
Proof.
  unfold variant_schemas. destruct (u && _).
  - rewrite valid_oneOf. intros H. apply Nat.eqb_eq in H. destruct (filter _ ss) as [|c l] eqn:EF; [discriminate|].
    assert (HC : In c (filter (fun s => ok_ s j) ss)) by (rewrite EF; now left). apply filter_In in HC. eauto.
  - rewrite valid_anyOf. intros H. apply existsb_exists in H. exact H.
Qed.

Lemma names_own (vs : list (variant X)) : NoDup (map v_de (filter (fun v => negb (v_skip_de v) && negb (v_untagged v)) vs)) ->
  forall v, In v vs -> v_skip_de v = false -> v_untagged v = false -> own_name vs v.
Proof.
  intros ND v Hv Hs Hu v' Hv' Hs' Hu' HE.
  assert (HI : forall w, In w vs -> v_skip_de w = false -> v_untagged w = false -> In w (filter (fun v => negb (v_skip_de v) && negb (v_untagged v)) vs)).
  { intros w W1 W2 W3. apply filter_In. now rewrite W2, W3. }
  apply HI in Hv, Hv'; auto. revert ND Hv Hv' HE. clear. generalize (filter (fun v => negb (v_skip_de v) && negb (v_untagged v)) vs).
  induction l as [|w l IH]; [intros _ []|]. cbn [map In]. intros ND. inversion ND as [|a b N1 N2]; subst.
  intros [<-|H1] [<-|H2] HE; auto.
  - exfalso. apply N1. rewrite <- HE. now apply in_map.
  - exfalso. apply N1. rewrite HE. now apply in_map.
Qed.

Definition own_names (tg : tagging) (vs : list (variant X)) : Prop :=
  tg = Untagged \/ NoDup (map v_de (filter (fun v => negb (v_skip_de v) && negb (v_untagged v)) vs)).
Lemma own_names_of tg vs v : own_names tg vs -> In v vs -> v_skip_de v = false -> tg = Untagged \/ v_untagged v = true \/ own_name vs v.
Proof.
  intros [H|H] Hv Hs; [now left|right]. destruct (v_untagged v) eqn:EU; [now left|right]. now apply names_own.
Qed.

Definition struct_known (deny : bool) (d : data X) (c : json) : Prop :=
  (forall def fs, d = DStruct def (Struct fs) -> deny = false -> exists m, c = JObj m /\ known_struct def false (taken fs) m)
  /\ (solid_data d -> usable c = true).
Definition data_known (deny : bool) (d : data X) (c : json) : Prop :=
  neat c /\ struct_known deny d c /\ forall j, instance j -> below j -> whole (data_passes d) j -> ok_ c j = true -> reads_data items text_ok deny d j.

Lemma Forall2_in_r {P Q} (r : P -> Q -> Prop) l l' y : Forall2 r l l' -> In y l' -> exists x, In x l /\ r x y.
Proof. induction 1; [intros []|]. intros [<-|HI]; [exists x; split; [now left|assumption]|]. destruct (IHForall2 HI) as (z & Hz & Hr). exists z. split; [now right|exact Hr]. Qed.

Lemma variants_known deny tg vs vs' ss : own_names tg vs -> (forall v, In v vs' -> In v vs) -> Forall2 (variant_known deny tg) (taken_variants vs') ss ->
  forall c j, In c ss -> ok_ c j = true -> instance j -> below j -> whole (data_passes (DEnum tg vs)) j -> reads_data items text_ok deny (DEnum tg vs) j.
Proof.
  intros HO HS HF c j Hc HV HI HB HW. destruct (Forall2_in_r _ _ _ _ HF Hc) as (v & Hv & HK). unfold taken_variants in Hv.
  apply filter_In in Hv as [Hv Hsk]. apply negb_true_iff in Hsk. apply RdEnum with v; auto; [now apply own_names_of; auto|]. apply HK; auto.
  intros w x HR [Ht Hp]. apply HW; [exact HR|]. cbn [data_passes]. exists v. auto.
Qed.

Lemma neat_false : neat (JBool false).
Proof.
  split; [reflexivity| |reflexivity]. cbn. destruct (String.eqb_spec tok "not") as [->|]; [|reflexivity]. exfalso. apply tok_fresh.
  unfold used. apply in_or_app. left. in_names.
Qed.
Lemma neat_variants u (vs : list (variant X)) ss : neat (variant_schemas u vs ss).
Proof. unfold variant_schemas. apply neat_obj. destruct (u && _); reflexivity. Qed.

Lemma unit_names_inv vs j : ok_ (unit_names Deserialize vs) j = true -> exists v : variant X, In v vs /\ v_skip_de v = false /\ j = JStr (v_de v).
Proof.
  unfold unit_names, obj. intros HV.
  pose proof (kw_present E _ "enum" _ _ HV eq_refl) as HE. change (chk_enum (Some (JArr (map (fun v => JStr (v_name Deserialize v)) (filter (fun v => included (v_skip_de v) (v_skip_ser v) Deserialize) vs)))) j = true) in HE.
  cbn [chk_enum] in HE. apply existsb_exists in HE as (x & Hx & HJ). apply in_map_iff in Hx as (v & <- & Hv). apply filter_In in Hv as [Hv Hs].
  cbn [included] in Hs. apply negb_true_iff in Hs. apply jeq_str in HJ. exists v. auto.
Qed.

Lemma enum_post deny tg vs Q k : (forall v, In v vs -> readable_variant items wf_meta deny tg v) -> own_names tg vs ->
  (forall c, data_known deny (DEnum tg vs) c -> post Q (k c)) -> post Q (enum_prog items deny Deserialize tg vs k).
Proof.
  intros HR HO H. unfold enum_prog. destruct vs as [|v0 vs0].
  { apply H. split; [apply neat_false|]. split; [split; [now intros ? ?|now intros]|]. intros j _ _ _ HV. now rewrite valid_bool in HV. }
  set (vs := v0 :: vs0) in *. clearbody vs. clear v0 vs0. destruct tg as [| |tag|tag content].
  - set (units := filter plain_unit vs). set (complex := filter (fun v => negb (plain_unit v)) vs).
    assert (HUn : forall j, ok_ (unit_names Deserialize units) j = true -> reads_data items text_ok deny (DEnum External vs) j).
    { intros j HV. apply unit_names_inv in HV as (v & Hv & Hs & ->). apply filter_In in Hv as [Hv HP]. apply RdEnum with v; auto; [now apply own_names_of|].
      unfold plain_unit in HP. rewrite !andb_true_iff, unit_style, negb_true_iff in HP. destruct HP as [[HP _] HU]. now apply RvName. }
    destruct complex as [|c0 cs0] eqn:EC.
    { apply H. split; [apply neat_obj; reflexivity|]. split; [split; [now intros ? ?|now intros]|]. intros j _ _ _ HV. now apply HUn. }
    rewrite <- EC. assert (HS : forall v, In v complex -> In v vs) by (intros v Hv; now apply filter_In in Hv).
    apply (variants_post deny External).
    + intros v k' Hv. apply external_post. now apply HR, HS.
    + intros ss Hss. apply H. split; [apply neat_variants|]. split; [split; [now intros ? ?|now intros]|]. intros j HI HB HW HV. apply one_accepts in HV as (c & Hc & HV).
      destruct units as [|u us] eqn:EU.
      * eapply variants_known; eauto.
      * destruct Hc as [<-|Hc]; [now apply HUn|]. eapply variants_known; eauto.
  - apply (variants_post deny Untagged).
    + intros v k' Hv HK. apply (untagged_post deny Untagged); auto.
    + intros ss Hss. apply H. split; [apply neat_variants|]. split; [split; [now intros ? ?|now intros]|]. intros j HI HB HW HV. apply one_accepts in HV as (c & Hc & HV).
      eapply (variants_known deny Untagged vs vs); eauto.
  - apply (variants_post deny (Internal tag)).
    + intros v k' Hv HK. apply internal_post; auto.
    + intros ss Hss. apply H. split; [apply neat_variants|]. split; [split; [now intros ? ?|now intros]|]. intros j HI HB HW HV. apply one_accepts in HV as (c & Hc & HV).
      eapply (variants_known deny (Internal tag) vs vs); eauto.
  - apply (variants_post deny (Adjacent tag content)).
    + intros v k' Hv HK. apply adjacent_post; auto.
    + intros ss Hss. apply H. split; [apply neat_variants|]. split; [split; [now intros ? ?|now intros]|]. intros j HI HB HW HV. apply one_accepts in HV as (c & Hc & HV).
      eapply (variants_known deny (Adjacent tag content) vs vs); eauto.
Qed.

(** ** Declarations *)
Lemma exact_int n : exact (JNum n) = true -> num_integral n = true -> exists z, n = NInt z.
Proof. destruct n as [z|m e]; [eauto|]. cbn [exact]. intros H1 H2. rewrite H2 in H1. discriminate. Qed.
Lemma num_eqb_int a b : num_eqb (NInt a) (NInt b) = true -> a = b.
Proof.
  unfold num_eqb, num_cmp. cbn [num_me]. change (0 - Z.min 0 0)%Z with 0%Z. rewrite !Z.mul_1_r.
  destruct (Z.compare_spec a b); congruence.
Qed.

Lemma data_post deny d Q k : readable_data items wf_meta deny d -> (forall c, data_known deny d c -> post Q (k c)) ->
  post Q (data_prog items deny Deserialize d k).
Proof.
  intros HR H. induction d as [def s|tg vs|zs|from into own IH]; cbn [data_prog readable_data] in *.
  - apply style_post; [exact HR|]. intros c (HN & HUs & HSt' & HK). apply H. split; [exact HN|]. split; [split; [intros def' fs [= <- ->]; now apply HSt'|intros HX; apply HUs; intros f ->; exact HX]|]. intros j HI HB HW HV. apply RdStruct. now apply HK.
  - destruct HR as [HR HO]. apply enum_post; auto.
  - apply H. split; [apply neat_obj; reflexivity|]. split; [split; [now intros ? ?|now intros]|]. intros j [HI HX] HB HW HV. unfold repr_schema, obj in HV.
    pose proof (kw_present E _ "type" _ _ HV eq_refl) as HT. change (chk_type D2020 (Some (JStr "integer")) None j = true) in HT. rewrite chk_type_str in HT.
    pose proof (kw_present E _ "enum" _ _ HV eq_refl) as HE. change (chk_enum (Some (JArr (map jz zs))) j = true) in HE. cbn [chk_enum] in HE.
    destruct j as [| |n| | |]; try discriminate. destruct (exact_int n HX HT) as (z & ->). apply existsb_exists in HE as (x & Hx & HJ).
    apply in_map_iff in Hx as (z' & <- & Hz). change (num_eqb (NInt z) (NInt z') = true) in HJ. apply num_eqb_int in HJ. subst z'. now apply RdRepr.
  - cbn [converted]. destruct from as [t|].
    + cbn [Derivation.post]. intros c [[(HRt & HN & HK) _] _]. apply H. split; [exact HN|]. split; [split; [now intros ? ?|now intros]|]. intros j HI HB HW HV. apply RdFrom. apply HK; [|exact HV].
      apply HW; [exact HRt|reflexivity|lia|exact HI].
    + apply IH; [exact HR|]. intros c (HN & _ & HK). apply H. split; [exact HN|]. split; [split; [now intros ? ?|now intros]|]. intros j HI HB HW HV. apply RdOwn. now apply HK.
Qed.

(** ** Types *)
Definition fits (u : rty) (c : json) : Prop :=
  neat c /\ (u = TUnit -> c = type_schema "null") /\ (key_string u -> c = type_schema "string") /\ (forall i, u = TInt i -> c = int_schema i)
  /\ shape u c /\ struct_formed u c /\ forall j, instance j -> below j -> whole (passes items u) j -> ok_ c j = true -> reads_ (unwrap u) j.

Lemma reads_unwrap u j : reads_ (unwrap u) j -> reads_ u j.
Proof. induction u; auto; cbn [unwrap]; intros H; [apply RFwd|apply RWeak, RSome]; auto. Qed.

Lemma int_inv i j : i <> I128 -> i <> U128 -> exact j = true -> ok_ (int_schema i) j = true -> exists z, j = JNum (NInt z) /\ in_range i z = true.
Proof.
  intros H1 H2 HX HV. rewrite valid_int in HV. destruct j as [| |n| | |]; try discriminate. rewrite !andb_true_iff in HV. destruct HV as [[[HI HF] HA] HB].
  destruct (exact_int n HX HI) as (z & ->). exists z. split; [reflexivity|].
  destruct i; try contradiction; try (apply (cf_int _ _ HFm); [cbn; tauto|exact HF]);
    unfold above, TypesShape.below, lower, upper in *; rewrite ?num_leb_int in *; unfold in_range;
    match goal with |- context [int_range ?i] => let v := eval vm_compute in (int_range i) in change (int_range i) with v end;
    cbn [fst snd]; apply andb_true_intro; split; assumption.
Qed.

Lemma nonzero_int i j : ok_ (nonzero_schema i) j = true -> ok_ (int_schema i) j = true.
Proof.
  rewrite valid_nonzero, valid_int. destruct j as [| |n| | |]; auto. rewrite !andb_true_iff. intros [[[H1 H2] H3] _]. repeat split; try apply H1; auto.
  destruct (is_signed i) eqn:ES; [exact H2|]. destruct i; try discriminate; unfold above, lower in *.
  all: unfold num_leb, num_cmp in *; destruct n as [z|m e]; cbn [num_me] in *.
  all: try (change (0 - Z.min 0 0)%Z with 0%Z in *; rewrite !Z.mul_1_r in *; destruct (Z.compare_spec 1 z), (Z.compare_spec 0 z); try discriminate; try reflexivity; lia).
  all: assert (HP : (0 < 2 ^ (0 - Z.min 0 e))%Z) by (apply Z.pow_pos_nonneg; lia).
  all: rewrite Z.mul_0_l; destruct (Z.compare_spec (1 * 2 ^ (0 - Z.min 0 e)) (m * 2 ^ (e - Z.min 0 e))), (Z.compare_spec 0 (m * 2 ^ (e - Z.min 0 e))); try discriminate; try reflexivity; lia.
Qed.

Lemma nonzero_not i z : ok_ (nonzero_schema i) (JNum (NInt z)) = true -> z <> 0%Z.
Proof.
  rewrite valid_nonzero. rewrite !andb_true_iff. intros [[[_ H2] _] H4] ->. destruct (is_signed i); discriminate.
Qed.

Lemma subs_post Q ts : forall k, (forall ss, Forall2 A ts ss -> post Q (k ss)) -> post Q (subs ts k).
Proof.
  induction ts as [|t ts IH]; intros k H; cbn [subs]; [apply H; constructor|]. cbn [Derivation.post]. intros s Hs. apply IH. intros ss Hss. apply H. now constructor.
Qed.

Lemma elems_read t s l : A t s -> instance (JArr l) -> below (JArr l) -> forallb (ok_ s) l = true -> Forall (reads_ t) l.
Proof.
  intros [(HR & _ & HK) _] HI HB HV. rewrite forallb_forall in HV. apply Forall_forall. intros x Hx. apply HK; [|now apply HV].
  apply HB; [exact HR|now apply depth_elem|eapply instance_elem; eauto].
Qed.

Lemma tuple_read ts : forall ss l, Forall2 A ts ss -> pairwise E ss l = true -> (forall t x, R t -> In x l -> J t x) -> Forall2 reads_ ts l.
Proof.
  induction ts as [|t ts IH]; intros ss l HF HP HJ; inversion HF; subst; unfold pairwise in HP; apply andb_prop in HP as [HL HP]; apply Nat.eqb_eq in HL.
  - destruct l; [constructor|discriminate].
  - destruct l as [|x l]; [discriminate|]. cbn [List.length combine forallb fst snd] in *. apply andb_prop in HP as [HP1 HP2]. constructor.
    + destruct H1 as [(HR & _ & HK) _]. apply HK; [|exact HP1]. apply HJ; [exact HR|now left].
    + eapply IH; eauto.
      * unfold pairwise. rewrite HP2, andb_true_r. apply Nat.eqb_eq. lia.
      * intros t' z HR Hz. apply HJ; [exact HR|now right].
Qed.

Lemma key_reads k n : key_string k -> reads_key k n.
Proof. induction k; cbn [key_string]; try contradiction; intros H; constructor; auto. Qed.

Lemma map_of_string p d vs : map_schema p d (type_schema "string") vs = map_of_kinds (KeyKinds true 0 [] []) vs.
Proof. reflexivity. Qed.

Lemma neat_true : neat (JBool true).
Proof. split; reflexivity. Qed.

Lemma no_struct u c : (forall i cs ts, u <> TAdt i cs ts) -> is_map u = false -> (solid items u -> usable c = true) -> struct_formed u c.
Proof. intros H HM HU. split; [|split; [congruence|exact HU]]. intros (i & cs & ts & def & fs & -> & _). now elim (H i cs ts). Qed.
Lemma known_open i cs ts def fs m : d_data (it_decl (items i) cs ts) = DStruct def (Struct fs) ->
  (forall f, In f (taken fs) -> f_flatten f = true -> is_map (f_ty f) = false) -> known_struct def false (taken fs) m ->
  open_schema (TAdt i cs ts) m.
Proof.
  intros HD HM K.
  assert (HT : forall n, (exists f, In f (taken fs) /\ takes f n) -> takes_key items (TAdt i cs ts) n).
  { intros n (f & Hf & Hk). unfold taken in Hf. apply filter_In in Hf as [Hf Hs]. apply negb_true_iff in Hs. econstructor; eauto. }
  split; try apply K; auto; intros n Hn; apply HT; [now apply (ks_names _ _ _ _ K)|now apply (ks_all_required _ _ _ _ K)].
Qed.
Ltac rest := split; [try discriminate|split; [try contradiction; try discriminate|split; [try discriminate|split; [try exact I|split; [try (apply no_struct; [discriminate|reflexivity|try (intros _; reflexivity)])|]]]]].
Ltac leaf_shape := first [apply shape_str|apply shape_number|apply shape_f32|apply shape_f64|apply shape_int|apply shape_seq; match goal with H : A _ _ |- _ => apply H end|apply shape_set; match goal with H : A _ _ |- _ => apply H end].
Lemma body_step u : readable_type items wf_meta u -> post (fits u) (body items u).
Proof.
  assert (HLeaf : forall (u : rty) (l : map_t), neat_keys (map fst l) = true -> (u = TUnit -> obj l = type_schema "null") ->
     (key_string u -> obj l = type_schema "string") -> (forall i, u = TInt i -> obj l = int_schema i) -> shape u (obj l) -> (forall i cs ts, u <> TAdt i cs ts) -> is_map u = false ->
     (forall j, instance j -> below j -> whole (passes items u) j -> ok_ (obj l) j = true -> reads_ (unwrap u) j) -> fits u (obj l)).
  { intros u0 l H1 H2 H3 H4 H5 H6 HM H7. split; [now apply neat_obj|]. repeat (split; [assumption|]). split; [now apply no_struct|exact H7]. }
  induction u as [| | | | | | | |i|i|k|t IH|t IH|t IH|n t IH|ts|k IHk v IHv|t IHt e IHe|t IH|t IH| | | | |t IHt e IHe|n t IH| | |t IH|t IH|i cs ts]; intros HR; cbn [body readable_type] in *; try contradiction.
  all: cbn [Derivation.post].
  - apply HLeaf; try exact I; try (leaf_shape; fail); try reflexivity; try discriminate; auto. intros j HI HB HW HV. change (ok_ (type_schema "string") j = true) in HV.
    rewrite valid_type_schema in HV. destruct j; try discriminate. constructor.
  - apply HLeaf; try exact I; try (leaf_shape; fail); try reflexivity; try discriminate; auto; [contradiction|]. intros j HI HB HW HV. change (ok_ (type_schema "boolean") j = true) in HV.
    rewrite valid_type_schema in HV. destruct j; try discriminate. constructor.
  - apply HLeaf; try exact I; try (leaf_shape; fail); try reflexivity; try discriminate; auto; [contradiction|]. intros j HI HB HW HV. change (ok_ (type_schema "null") j = true) in HV.
    rewrite valid_type_schema in HV. destruct j; try discriminate. constructor.
  - apply HLeaf; try exact I; try (leaf_shape; fail); try reflexivity; try discriminate; auto; [contradiction|]. intros j HI HB HW HV. fold char_schema in HV. rewrite valid_char in HV.
    destruct j; try discriminate. constructor. now apply Z.eqb_eq.
  - apply HLeaf; try exact I; try (leaf_shape; fail); try reflexivity; try discriminate; auto; [contradiction|]. intros j HI HB HW HV. fold (formatted "number" "float") in HV. rewrite valid_formatted in HV.
    apply andb_prop in HV as [HV _]. destruct j; try discriminate. constructor.
  - apply HLeaf; try exact I; try (leaf_shape; fail); try reflexivity; try discriminate; auto; [contradiction|]. intros j HI HB HW HV. fold (formatted "number" "double") in HV. rewrite valid_formatted in HV.
    apply andb_prop in HV as [HV _]. destruct j; try discriminate. constructor.
  - split; [apply neat_true|]. rest. intros. constructor.
  - apply HLeaf; try exact I; try (leaf_shape; fail); try reflexivity; try discriminate; auto; [contradiction|]. intros j HI HB HW HV. change (ok_ (type_schema "number") j = true) in HV.
    rewrite valid_type_schema in HV. destruct j; try discriminate. constructor.
  - apply HLeaf; try exact I; try (leaf_shape; fail); try discriminate; auto; [destruct i; reflexivity|contradiction|intros i0 Hi; injection Hi as <-; reflexivity|]. intros j HI HB HW HV. fold (int_schema i) in HV.
    destruct HR as [H1 H2]. destruct (int_inv i j H1 H2 (proj2 HI) HV) as (z & -> & Hz). now constructor.
  - intros s (_ & _ & HS & _). specialize (HS i eq_refl). subst s. fold (nonzero_schema i). destruct HR as [H1 H2]. split.
    { unfold nonzero_schema. assert (HN : neat (int_schema i)) by (apply neat_obj; destruct i; reflexivity).
      destruct (is_signed i); (apply neat_insert; [|discriminate|exact HN]); intros HT; apply tok_fresh; rewrite <- HT; unfold used; apply in_or_app; left; in_names. }
    rest; [intros _; unfold nonzero_schema; destruct (is_signed i); reflexivity|]. intros j HI HB HW HV. pose proof (nonzero_int _ _ HV) as HV'.
    destruct (int_inv i j H1 H2 (proj2 HI) HV') as (z & -> & Hz). constructor; [exact Hz|]. now apply (nonzero_not i).
  - rewrite HSt. assert (HK : text_schema Deserialize k = obj (match k with
        | Weekday => [("type", JStr "string"); ("enum", JArr (map JStr weekdays))]
        | SemVer => [("type", JStr "string"); ("pattern", JStr semver_pattern)]
        | Decimal => [("type", decimal_type Deserialize); ("pattern", JStr (decimal_pattern Deserialize))]
        | _ => [("type", JStr "string"); ("format", JStr (text_format k))] end)) by (destruct k; reflexivity).
    rewrite HK. apply HLeaf; try exact I; try (leaf_shape; fail); try discriminate; auto; [destruct k; reflexivity|contradiction|]. rewrite <- HK. clear HK.
    intros j HI HB HW HV. rewrite valid_text in HV.
    assert (HT : k = Weekday \/ ~ In k [Weekday; SemVer; Decimal]) .
    { destruct k; try (now left); try (exfalso; exact HR); (right; intros HIn; cbn in HIn; repeat (destruct HIn as [HIn|HIn]; [discriminate|]); exact HIn). }
    destruct HT as [->|HT].
    + destruct j; try discriminate. apply RWeekday. apply existsb_exists in HV as (d & Hd & HE). apply String.eqb_eq in HE. now subst.
    + destruct j as [| | |s| |]; try (destruct k; first [discriminate|exfalso; exact HR]).
      constructor; [intros ->; apply HT; in_names|intros ->; apply HT; in_names|]. apply (cf_text _ _ HFm k s HT). destruct k; try exact HV; exfalso; first [exact HR|apply HT; in_names].
  - intros s [(HRt & HN & HK) [_ HSh]]. split; [now apply neat_allow_null|]. split; [discriminate|]. split; [contradiction|]. split; [discriminate|]. split; [now apply shape_null|].
    split; [apply no_struct; [discriminate|reflexivity|intros _; apply usable_null, HN]|]. intros j HI HB HW HV.
    destruct (allow_null_only s j (nt_schema _ HN) (nt_const _ HN) HV) as [->|HV']; [apply RNone|apply RSome]. apply HK; [|exact HV']. apply HW; [exact HRt|reflexivity|lia|exact HI].
  - intros s HA. apply HLeaf; try exact I; try (leaf_shape; fail); try reflexivity; try discriminate; [contradiction|]. intros j HI HB HW HV. rewrite valid_items in HV. destruct j as [| | | |l|]; try discriminate.
    constructor. eapply elems_read; eauto.
  - intros s HA. apply HLeaf; try exact I; try (leaf_shape; fail); try reflexivity; try discriminate; [contradiction|]. intros j HI HB HW HV. fold (set_schema s) in HV. rewrite valid_set_schema in HV.
    destruct j as [| | | |l|]; try discriminate. apply andb_prop in HV as [_ HV]. constructor. eapply elems_read; eauto.
  - destruct n as [|n]; cbn [Derivation.post].
    + apply HLeaf; try exact I; try (leaf_shape; fail); try reflexivity; try discriminate; [contradiction|]. intros j HI HB HW HV. fold empty_array_schema in HV. rewrite valid_empty_array in HV.
      destruct j as [| | | |[|x l]|]; try discriminate. now constructor.
    + intros s HA. apply HLeaf; try exact I; try (leaf_shape; fail); try reflexivity; try discriminate; [contradiction|]. intros j HI HB HW HV. fold (array_schema (Datatypes.S n) s) in HV. rewrite valid_array in HV.
      destruct j as [| | | |l|]; try discriminate. apply andb_prop in HV as [HL HV]. apply Nat.eqb_eq in HL. constructor; [exact HL|]. eapply elems_read; eauto.
  - apply subs_post. intros ss HA. cbn [Derivation.post]. apply HLeaf; try exact I; try (leaf_shape; fail); try reflexivity; try discriminate; [contradiction|]. intros j HI HB HW HV.
    change (ok_ (tuple_schema ss) j = true) in HV. rewrite valid_tuple_schema in HV. destruct j as [| | | |l|]; try discriminate. constructor. eapply tuple_read; eauto.
    intros t x HRt Hx. apply HB; [exact HRt|now apply depth_elem|eapply instance_elem; eauto].
  - intros ks (_ & HKs & _) vs [(HRv & _ & HKv) (_ & _ & _ & HUv)] d _. rewrite (HKs HR), map_of_string. split.
    { change (map_of_kinds (KeyKinds true 0 [] []) vs) with (obj [("type", JStr "object"); ("additionalProperties", vs)]). apply neat_obj. reflexivity. }
    rest.
    { split; [intros (? & ? & ? & ? & ? & HX & _); discriminate HX|]. split; [|reflexivity]. intros _. exists vs. split; [reflexivity|exact HUv]. }
    intros j HI HB HW HV. rewrite valid_map in HV. destruct j as [| | | | |o]; try discriminate.
    rewrite forallb_forall in HV. constructor.
    + intros n x Hx. now apply key_reads.
    + intros n x Hx. specialize (HV _ Hx). cbn [fst snd] in HV. apply andb_prop in HV as [_ HV]. apply HKv; [|exact HV].
      apply HB; [exact HRv|eapply depth_value; eauto|eapply instance_value; eauto].
  - intros s [(HRt & _ & HKt) _] s' [(HRe & _ & HKe) _]. split.
    { apply neat_obj. reflexivity. }
    rest. intros j HI HB HW HV. unfold either_schema in HV.
    rewrite valid_oneOf in HV.
    assert (HS : ok_ (either_side "Left" s) j = true \/ ok_ (either_side "Right" s') j = true).
    { apply Nat.eqb_eq in HV. destruct (filter _ _) as [|c l] eqn:EF in HV; [discriminate|]. assert (HC : In c (c :: l)) by now left.
      rewrite <- EF in HC. apply filter_In in HC as [HC HV']. destruct HC as [<-|[<-|[]]]; auto. }
    destruct HS as [HS|HS]; apply (external_inv _ _ _ HI) in HS as (x & -> & HS); constructor.
    + apply HKt; [|exact HS]. apply HB; [exact HRt|apply (depth_value _ "Left"); now left|apply (instance_value [("Left", x)] "Left"); [exact HI|now left]].
    + apply HKe; [|exact HS]. apply HB; [exact HRe|apply (depth_value _ "Right"); now left|apply (instance_value [("Right", x)] "Right"); [exact HI|now left]].
  - intros s HA. apply HLeaf; try exact I; try (leaf_shape; fail); try reflexivity; try discriminate; [contradiction|]. intros j HI HB HW HV. fold (array_vec_schema n s) in HV. rewrite valid_array_vec in HV.
    destruct j as [| | | |l|]; try discriminate. apply andb_prop in HV as [HL HV]. apply Nat.leb_le in HL. constructor; [exact HL|]. eapply elems_read; eauto.
  - rewrite HSt. intros s HA. apply HLeaf; try exact I; try (leaf_shape; fail); try reflexivity; try discriminate; [contradiction|]. intros j HI HB HW HV. fold (bytes1_schema Deserialize s) in HV. rewrite valid_bytes1 in HV.
    destruct j as [| | | |l|]; try discriminate; constructor. eapply elems_read; eauto.
  - apply (Derivation.post_weak S seen A C (fits t)); [|now apply IH]. intros c (HN & _ & HKey & _ & HSh & (_ & _ & HUc) & HK). split; [exact HN|]. split; [discriminate|]. split; [exact HKey|]. split; [discriminate|]. split; [exact HSh|]. split; [apply no_struct; [discriminate|reflexivity|exact HUc]|exact HK].
  - apply (Derivation.post_weak S seen A C (fits t)); [|now apply IH]. intros c (HN & _ & HKey & _ & HSh & (_ & _ & HUc) & HK). split; [exact HN|]. split; [discriminate|]. split; [contradiction|]. split; [discriminate|]. split; [exact I|]. split; [apply no_struct; [discriminate|reflexivity|exact HUc]|exact HK].
  - unfold decl_prog. rewrite HSt. destruct HR as [HM HD]. apply data_post; [exact HD|]. intros c (HN & (HSd & HUd) & HK). cbn [Derivation.post].
    split; [now apply neat_insert_all|]. rest.
    { split; [|split; [discriminate|intros HX; apply usable_all; now apply HUd]].
      intros (i' & cs' & ts' & def & fs & [= <- <- <-] & H1 & H2 & H3). destruct (HSd def fs H1 H2) as (m & -> & K).
      destruct (open_meta (TAdt i cs ts) (d_meta (it_decl (items i) cs ts)) m HM) as (m' & -> & HO & _); [eapply known_open; eauto|eauto]. }
    intros j HI HB HW HV. rewrite (valid_insert_all E tok) in HV by (auto; now apply nt_schema).
    constructor. now apply HK.
Qed.
End Step.
