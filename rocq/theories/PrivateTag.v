(** Internal tags: what apply_internal_enum_variant_tag does to the meaning of a schema. *)
From Coq Require Import String Ascii List ZArith NArith Bool Lia.
From Verif Require Import Json JsonFacts Utf8 SchemaApi Validate ValidateFacts ValidateKw Private PrivateProps.
Import ListNotations.
Open Scope string_scope.

(** Specification. The schema without its own "type", with the tag declared (unconstrained) among
    the properties; a unit variant's schema that denies unknown fields gets
    [additionalProperties: false]. *)
Definition closed_unit (deny : bool) (m : map_t) : bool :=
  deny && match mget "type" m with Some (JStr x) => String.eqb x "null" | _ => false end
  && negb (mhas "additionalProperties" m).

Definition with_tag_declared (tag : string) (deny : bool) (m : map_t) : map_t :=
  let m' := mset "properties" (JObj (mset tag (JBool true) (props_of m))) (mdel "type" m) in
  if closed_unit deny m then mset "additionalProperties" (JBool false) m' else m'.

(** "properties" and "required" have the usual form, if present. *)
Definition usual (m : map_t) : Prop :=
  (mget "properties" m = None \/ exists ps, mget "properties" m = Some (JObj ps))
  /\ (mget "required" m = None \/ exists l, mget "required" m = Some (JArr l)).

Lemma mget_mupd {A} k k' (f : A -> A) m :
  mget k (mupd k' f m) = if String.eqb k k' then option_map f (mget k m) else mget k m.
Proof.
  induction m as [|[k0 x] m IH]; cbn; [now destruct (String.eqb k k')|].
  destruct (String.eqb_spec k' k0) as [->|H]; cbn.
  - destruct (String.eqb_spec k k0); reflexivity.
  - rewrite IH. destruct (String.eqb_spec k k0) as [->|]; [|reflexivity].
    destruct (String.eqb_spec k0 k'); congruence.
Qed.

Lemma entry_get k d f m k' :
  mget k' (entry_update k d f m)
  = if String.eqb k' k then Some (f (match mget k m with Some x => x | None => d end)) else mget k' m.
Proof.
  unfold entry_update, mhas. rewrite mget_mupd. destruct (mget k m) eqn:EM.
  - destruct (String.eqb_spec k' k); [subst; now rewrite EM|reflexivity].
  - rewrite mget_mset. now destruct (String.eqb k' k).
Qed.

Definition tag_schema (variant : string) : json := obj [("type", JStr "string"); ("const", JStr variant)].

Definition tagged (tag variant : string) (deny : bool) (m : map_t) : map_t :=
  match apply_internal_tag tag variant deny (JObj m) with JObj r => r | _ => [] end.

Lemma tagged_obj tag variant deny m : apply_internal_tag tag variant deny (JObj m) = JObj (tagged tag variant deny m).
Proof. reflexivity. Qed.

Lemma tagged_get tag variant deny m k : usual m ->
  mget k (tagged tag variant deny m)
  = if String.eqb k "type" then Some (JStr "object")
    else if String.eqb k "properties" then Some (JObj (mset tag (tag_schema variant) (props_of m)))
    else if String.eqb k "required" then Some (JArr (JStr tag :: required_of m))
    else if closed_unit deny m && String.eqb k "additionalProperties" then Some (JBool false)
    else mget k m.
Proof.
  intros [HP HR]. unfold tagged, apply_internal_tag. cbv zeta. unfold ensure_obj. cbn [ensure_object].
  set (u := match mget "type" m with Some (JStr x) => String.eqb x "null" | _ => false end).
  assert (HC : closed_unit deny m = deny && u && negb (mhas "additionalProperties" m)) by reflexivity.
  assert (H1 : forall k, mget k (entry_update "required" (JArr []) (in_arr (fun l => JStr tag :: l))
     (entry_update "properties" (JObj []) (in_obj (mset tag (tag_schema variant)))
        (mset "type" (JStr "object") m)))
    = if String.eqb k "type" then Some (JStr "object")
    else if String.eqb k "properties" then Some (JObj (mset tag (tag_schema variant) (props_of m)))
    else if String.eqb k "required" then Some (JArr (JStr tag :: required_of m)) else mget k m).
  { intros k0. rewrite !entry_get, !mget_mset. cbn [String.eqb Ascii.eqb Bool.eqb].
    destruct (String.eqb_spec k0 "required") as [->|N1]; cbn [String.eqb Ascii.eqb Bool.eqb].
    - unfold required_of. destruct HR as [HR|[l HR]]; rewrite HR; reflexivity.
    - destruct (String.eqb_spec k0 "properties") as [->|N2]; cbn [String.eqb Ascii.eqb Bool.eqb].
      + unfold props_of. destruct HP as [HP|[ps HP]]; rewrite HP; reflexivity.
      + reflexivity. }
  fold (tag_schema variant). destruct (deny && u) eqn:ED.
  - rewrite entry_get, !H1. cbn [String.eqb Ascii.eqb Bool.eqb].
    rewrite HC. cbn [andb].
    destruct (String.eqb_spec k "additionalProperties") as [->|N]; cbn [String.eqb Ascii.eqb Bool.eqb].
    + unfold mhas.
      destruct (mget "additionalProperties" m) eqn:EA; cbn; auto.
    + now rewrite andb_false_r.
  - rewrite HC. cbn [andb]. apply H1.
Qed.

Section Tag.
Variable E : env.

Lemma tag_schema_sem variant x : valid D2020 E (tag_schema variant) x = jeq x (JStr variant).
Proof.
  unfold tag_schema, obj, mk, mappend. cbn [fold_left fst snd mset String.compare Ascii.compare].
  change (mset "const" (JStr variant) [("type", JStr "string")]) with [("const", JStr variant); ("type", JStr "string")].
  rewrite valid_entries by (cbn; repeat constructor; cbn; intuition discriminate).
  cbn [forallb fst snd]. unfold kw. cbn [String.eqb Ascii.eqb Bool.eqb existsb assertion_names orb].
  destruct x; cbn; rewrite ?andb_false_r, ?andb_true_r; reflexivity.
Qed.

Lemma jeq_str x t : jeq x (JStr t) = true <-> x = JStr t.
Proof.
  destruct x; cbn; split; try discriminate; intros H.
  - apply String.eqb_eq in H. now subst.
  - injection H as ->. apply String.eqb_refl.
Qed.

Lemma type_object v : type_ok "object" v = true -> exists o, v = JObj o.
Proof. destruct v as [| |n| | |o]; cbn; try discriminate; eauto. Qed.

Theorem tag_sem tag variant deny m v : usual m -> wf v = true ->
  valid D2020 E (apply_internal_tag tag variant deny (JObj m)) v = true
  <-> exists o, v = JObj o /\ mget tag o = Some (JStr variant)
                /\ valid D2020 E (JObj (with_tag_declared tag deny m)) v = true.
Proof.
  intros HU HW. rewrite tagged_obj.
  set (T := tagged tag variant deny m).
  assert (HT : mget "type" T = Some (JStr "object")) by (unfold T; now rewrite tagged_get).
  rewrite (valid_type E T "object") by exact HT. rewrite andb_true_iff.
  assert (HR : mget "required" (mdel "type" T) = Some (JArr (JStr tag :: required_of m))).
  { rewrite mget_mdel. cbn [String.eqb Ascii.eqb Bool.eqb]. unfold T. now rewrite tagged_get. }
  rewrite (valid_required E _ _ v HR).
  set (m0 := mdel "required" (mdel "type" (with_tag_declared tag deny m))).
  assert (HD : forall o, NoDup (map fst o) ->
    valid D2020 E (JObj (mdel "required" (mdel "type" T))) (JObj o)
    = match mget tag o with Some x => jeq x (JStr variant) | None => true end
      && valid D2020 E (JObj m0) (JObj o)).
  { intros o ND.
    rewrite (valid_lookup E _ (mset "properties" (JObj (mset tag (tag_schema variant) (props_of m))) m0)).
    - rewrite declare_property by exact ND. f_equal.
      + destruct (mget tag o); [apply tag_schema_sem|reflexivity].
      + apply valid_lookup. intros k. unfold m0, with_tag_declared. cbv zeta. rewrite mget_mset, !mget_mdel.
        destruct (String.eqb_spec k "properties") as [->|N]; [|reflexivity].
        cbn [String.eqb Ascii.eqb Bool.eqb].
        destruct (closed_unit deny m); rewrite ?mget_mset; cbn [String.eqb Ascii.eqb Bool.eqb]; reflexivity.
    - intros k. unfold T, m0, with_tag_declared. cbv zeta. rewrite mget_mset, !mget_mdel, tagged_get by exact HU.
      destruct (String.eqb_spec k "required") as [->|N1]; [reflexivity|].
      destruct (String.eqb_spec k "type") as [->|N2]; [reflexivity|].
      destruct (String.eqb_spec k "properties") as [->|N3]; [reflexivity|].
      destruct (closed_unit deny m); cbn [andb]; rewrite ?mget_mset, ?mget_mdel;
        destruct (String.eqb_spec k "properties"); try congruence;
        destruct (String.eqb_spec k "type"); try congruence;
        destruct (String.eqb_spec k "additionalProperties"); congruence. }
  assert (HQ : mget "required" (with_tag_declared tag deny m) = mget "required" m).
  { unfold with_tag_declared. cbv zeta. destruct (closed_unit deny m);
      rewrite ?mget_mset, ?mget_mdel; cbn [String.eqb Ascii.eqb Bool.eqb]; reflexivity. }
  assert (HRR : valid D2020 E (JObj (with_tag_declared tag deny m)) v
              = required_ok (required_of m) v && valid D2020 E (JObj m0) v).
  { rewrite valid_required'.
    - unfold required_of at 1. rewrite HQ. fold (required_of m). f_equal. apply valid_lookup. intros k.
      unfold m0. rewrite !mget_mdel. destruct (String.eqb_spec k "required"); [reflexivity|].
      destruct (String.eqb_spec k "type") as [->|]; [|reflexivity].
      unfold with_tag_declared. cbv zeta. destruct (closed_unit deny m);
        rewrite ?mget_mset, ?mget_mdel; cbn [String.eqb Ascii.eqb Bool.eqb]; reflexivity.
    - rewrite HQ. apply HU. }
  rewrite HRR. split.
  - intros [A B]. destruct (type_object _ A) as [o ->]. exists o. split; [reflexivity|].
    assert (ND : NoDup (map fst o)) by now apply wf_NoDup.
    rewrite HD in B by exact ND. cbn [required_ok forallb] in B. rewrite !andb_true_iff in B.
    destruct B as [[B1 B2] [B3 B4]]. unfold mhas in B1. destruct (mget tag o) as [x|] eqn:EM; [|discriminate].
    apply jeq_str in B3. subst x. split; [reflexivity|]. rewrite B4. cbn [required_ok]. now rewrite B2.
  - intros (o & -> & HG & HV). assert (ND : NoDup (map fst o)) by now apply wf_NoDup.
    rewrite HD by exact ND. apply andb_true_iff in HV as [A B]. split; [reflexivity|].
    cbn [required_ok forallb] in *. unfold mhas at 1. rewrite HG, A, B. cbn.
    now rewrite String.eqb_refl.
Qed.

(** For the schemas generated for structs: the rest of the schema is what the untagged schema says
    about the object without the tag. *)
Lemma props_ok_rest ps tag o : mget tag ps = None ->
  props_ok E (mset tag (JBool true) ps) (JObj o) = props_ok E ps (JObj (mdel tag o)).
Proof.
  intros HN. cbn [props_ok]. induction o as [|[k x] o IH]; [reflexivity|]. cbn [forallb mdel fst snd].
  rewrite mget_mset. destruct (String.eqb_spec k tag) as [->|N].
  - rewrite String.eqb_refl. cbn [valid]. rewrite valid_bool. exact IH.
  - destruct (String.eqb_spec tag k); [congruence|]. cbn [forallb fst snd]. now rewrite IH.
Qed.

Lemma mhas_mdel {A} k k' (o : list (string * A)) : mhas k (mdel k' o) = negb (String.eqb k k') && mhas k o.
Proof. unfold mhas. rewrite mget_mdel. now destruct (String.eqb k k'). Qed.

Lemma required_rest l tag o : ~ In (JStr tag) l ->
  required_ok l (JObj o) = required_ok l (JObj (mdel tag o)).
Proof.
  intros HN. cbn [required_ok]. apply forallb_eq. intros x Hx. destruct x; try reflexivity.
  rewrite mhas_mdel. destruct (String.eqb_spec s tag) as [->|]; [contradiction|reflexivity].
Qed.

Theorem tag_sem_struct tag variant deny m v :
  object_shape m -> mget "type" m = Some (JStr "object") ->
  mget tag (props_of m) = None -> ~ In (JStr tag) (required_of m) -> wf v = true ->
  valid D2020 E (apply_internal_tag tag variant deny (JObj m)) v = true
  <-> exists o, v = JObj o /\ mget tag o = Some (JStr variant)
                /\ valid D2020 E (JObj m) (JObj (mdel tag o)) = true.
Proof.
  intros HS HT HN HR HW.
  assert (HU : usual m) by (destruct HS as (_ & _ & ? & ?); split; auto).
  rewrite (tag_sem tag variant deny m v HU HW).
  assert (HC : closed_unit deny m = false).
  { unfold closed_unit. rewrite HT. cbn [String.eqb Ascii.eqb Bool.eqb]. now rewrite andb_false_r. }
  assert (HX : forall o, valid D2020 E (JObj (with_tag_declared tag deny m)) (JObj o)
                         = valid D2020 E (JObj m) (JObj (mdel tag o))).
  { intros o. rewrite (valid_shape E m) by exact HS. unfold with_tag_declared. cbv zeta. rewrite HC.
    set (m' := mset "properties" (JObj (mset tag (JBool true) (props_of m))) (mdel "type" m)).
    assert (HP' : props_of m' = mset tag (JBool true) (props_of m)).
    { unfold props_of at 1, m'. now rewrite mget_mset. }
    assert (HR' : required_of m' = required_of m).
    { unfold required_of, m'. now rewrite mget_mset, mget_mdel. }
    rewrite valid_shape.
    - rewrite HP', HR', props_ok_rest by exact HN. rewrite (required_rest _ tag o HR).
      f_equal. unfold additional_ok. rewrite HP'. unfold m'. rewrite mget_mset, mget_mdel.
      cbn [String.eqb Ascii.eqb Bool.eqb].
      destruct (mget "additionalProperties" m) as [a|]; [|reflexivity].
      induction o as [|[k x] o IH]; [reflexivity|]. cbn [forallb mdel fst snd]. rewrite mhas_mset.
      destruct (String.eqb_spec k tag) as [->|N].
      + rewrite String.eqb_refl. cbn [orb andb]. exact IH.
      + destruct (String.eqb_spec tag k); [congruence|]. cbn [forallb fst snd orb]. now rewrite IH.
    - destruct HS as (K & T & P & R). unfold m'. split; [|split; [|split]].
      + intros k Hk. rewrite mget_mset, mget_mdel. destruct (String.eqb_spec k "properties") as [->|].
        { intros _. in_names. }
        destruct (String.eqb_spec k "type"); [congruence|]. auto.
      + rewrite mget_mset, mget_mdel. cbn. auto.
      + rewrite mget_mset. cbn. eauto.
      + rewrite mget_mset, mget_mdel. cbn. exact R. }
  split; intros (o & -> & A & B); exists o; (split; [reflexivity|split; [exact A|]]).
  - now rewrite <- HX.
  - now rewrite HX.
Qed.

(** A unit variant. *)
Theorem tag_sem_unit tag variant deny v : wf v = true ->
  valid D2020 E (apply_internal_tag tag variant deny unit_schema) v = true
  <-> exists o, v = JObj o /\ mget tag o = Some (JStr variant)
                /\ (deny = true -> forall k, mget k o <> None -> k = tag).
Proof.
  intros HW. unfold unit_schema, obj, mk, mappend. cbn [fold_left fst snd mset].
  rewrite tag_sem; [|split; left; reflexivity|exact HW].
  unfold with_tag_declared, closed_unit, mhas. cbn [mget String.eqb Ascii.eqb Bool.eqb negb andb].
  cbv zeta. unfold props_of. cbn [mget String.eqb Ascii.eqb Bool.eqb mset mdel].
  destruct deny; cbn [andb].
  - assert (HV : forall o, valid D2020 E (JObj (mset "additionalProperties" (JBool false) [("properties", JObj [(tag, JBool true)])])) (JObj o)
                 = forallb (fun kx => mhas (fst kx) [(tag, JBool true)]) o).
    { intros o. change (mset "additionalProperties" (JBool false) [("properties", JObj [(tag, JBool true)])])
        with [("additionalProperties", JBool false); ("properties", JObj [(tag, JBool true)])].
      rewrite valid_shape.
      - unfold props_of, required_of, additional_ok, props_of. cbn [mget String.eqb Ascii.eqb Bool.eqb].
        replace (props_ok E [(tag, JBool true)] (JObj o)) with true.
        + cbn [required_ok forallb andb]. apply forallb_eq. intros kx _. cbn [valid]. rewrite valid_bool. apply orb_false_r.
        + symmetry. cbn [props_ok]. apply forallb_forall. intros [k x] _. cbn [mget fst snd]. now destruct (String.eqb k tag).
      - split; [|split; [|split]]; cbn [mget String.eqb Ascii.eqb Bool.eqb]; eauto.
        intros k Hk. cbn [mget]. destruct (String.eqb_spec k "additionalProperties") as [->|]; [intros; in_names|].
        destruct (String.eqb_spec k "properties") as [->|]; [intros; in_names|congruence]. }
    split; intros (o & -> & A & B); exists o; (split; [reflexivity|split; [exact A|]]).
    + intros _ k Hk. rewrite HV, forallb_forall in B. destruct (mget k o) eqn:EM; [|congruence].
      apply mget_In in EM. specialize (B _ EM). unfold mhas in B. cbn in B.
      destruct (String.eqb_spec k tag); [assumption|discriminate].
    + rewrite HV. apply forallb_forall. intros [k x] Hin. cbn [fst]. unfold mhas. cbn [mget].
      rewrite (B eq_refl k); [now rewrite String.eqb_refl|].
      rewrite (mget_In_val k o (wf_NoDup _ HW) x Hin). discriminate.
  - assert (HV : forall o, valid D2020 E (JObj [("properties", JObj [(tag, JBool true)])]) (JObj o) = true).
    { intros o. rewrite valid_entries by (cbn; constructor; [auto|constructor]). cbn [forallb fst snd].
      unfold kw. cbn [String.eqb Ascii.eqb Bool.eqb existsb assertion_names orb]. rewrite chk_props_ok, andb_true_r.
      cbn [props_ok]. apply forallb_forall. intros [k x] _. cbn [mget fst snd]. now destruct (String.eqb k tag). }
    split; intros (o & -> & A & B); exists o; (split; [reflexivity|split; [exact A|]]); [discriminate|apply HV].
Qed.

End Tag.
