(** Which entries serde's derived [Deserialize] and [Serialize] need and write.

    The first part is a SPECIFICATION (serde is not in /repo); it follows serde_derive/src/de.rs
    and serde's private/de.rs ([missing_field], [FlatMapDeserializer]). *)
From Coq Require Import String Ascii List ZArith Bool Lia.
From Verif Require Import Json JsonFacts Utf8 SchemaApi Validate Private Generate SerValue Types Serde SerdeFacts SoundStruct SoundTypes Sound
  Required RequiredDerive.
Import ListNotations.
Open Scope string_scope.
Open Scope list_scope.

(** ** Deserialization *)
(** [missing_field] gives the type a deserializer that answers [deserialize_option] with "none" and
    everything else with an error. Option and Weak ask for an option; Box and the like forward, and so does a
    type that is converted from another one with [serde(from)]. *)
Inductive missing_ok {X} (items : nat -> item X) : rty -> Prop :=
| MOption t : missing_ok items (TOption t)
| MWeak t : missing_ok items (TWeak t)
| MFwd t : missing_ok items t -> missing_ok items (TFwd t)
| MConv n cs ts t into own : d_data (it_decl (items n) cs ts) = DConv (Some t) into own -> missing_ok items t -> missing_ok items (TAdt n cs ts).
Fixpoint forwarded (t : rty) : rty := match t with TFwd t => forwarded t | _ => t end.

(** No "missing field" error when a struct is read from an object with these keys, no two fields of
    the struct having the same name. *)
Section Complete.
Context {X : Type}.
Variable items : nat -> item X.
Variable keys : list string.

Inductive complete : rty -> Prop :=
| Complete n cs ts def fs : d_data (it_decl (items n) cs ts) = DStruct def (Struct fs) ->
    (forall f, In f fs -> field_complete def f) -> complete (TAdt n cs ts)
with field_complete : bool -> field X -> Prop :=
| CSkipped def f : f_skip_de f = true -> field_complete def f
| CGiven def f : f_flatten f = false -> In (f_de f) keys -> field_complete def f
| CDefault def f : f_flatten f = false -> def = true \/ f_default f = true -> field_complete def f
| CMissing def f : f_flatten f = false -> missing_ok items (f_ty f) -> field_complete def f
  (* a flattened option is [None] if what it holds cannot be read *)
| CFlatNone def f : f_flatten f = true -> missing_ok items (f_ty f) -> field_complete def f
| CFlat def f : f_flatten f = true -> complete (forwarded (f_ty f)) -> field_complete def f.
End Complete.

Section CompleteFacts.
Context {X : Type}.
Variable items : nat -> item X.
Notation c := Deserialize.
Notation needs := (needs_key items c (schema_must c)).

Lemma strip_forwarded t : ~ missing_ok items t -> strip_option t = forwarded t.
Proof. induction t; cbn; auto; intros H; try (elim H; constructor; fail). apply IHt. intros HM. apply H. now constructor. Qed.

(** The fields for which the schema and serde could differ on purpose or by mistake *)
Definition agreeing (f : field X) : Prop := f_required f = false /\ (is_option (f_ty f) = true <-> missing_ok items (f_ty f)).

Theorem complete_iff t keys : grounded items c t ->
  (forall f, flat_field items c t f -> agreeing f) ->
  complete items keys t <-> (forall k, needs t k -> In k keys).
Proof.
  intros HG. induction HG as [n cs ts def fs HD HF IH]. intros HA.
  assert (IH' : forall f, In f fs -> f_skip_de f = false -> f_flatten f = true ->
    complete items keys (strip_option (f_ty f)) <-> (forall k, needs (strip_option (f_ty f)) k -> In k keys)).
  { intros f Hf HS HFl. apply IH; auto. intros g Hg. apply HA. eapply flat_field_flat; eauto. }
  assert (HA' : forall f, In f fs -> f_skip_de f = false -> agreeing f) by (intros f Hf HS; apply HA; eapply flat_field_self; eauto).
  split.
  - intros HC k HN. inversion HC as [n0 cs0 ts0 def0 fs0 Y1 Y2]; subst. rewrite HD in Y1. injection Y1 as <- <-.
    inversion HN as [n0 cs0 ts0 def0 fs0 f k0 Z1 Z2 Z3 Z4]; subst. rewrite HD in Z1. injection Z1 as <- <-.
    specialize (Y2 f Z2). pose proof Z3 as HS. cbn in HS. destruct (HA' f Z2 HS) as [A1 A2].
    inversion Z4 as [d f0 HFl HM|d f0 k0 HFl HL HK]; subst.
    + cbn [key]. destruct HM as (M1 & M2 & M3). inversion Y2; subst; try congruence; auto; try (match goal with H : missing_ok _ _ |- _ => apply A2 in H end); destruct M3; intuition congruence.
    + unfold loose in HL. rewrite A1, andb_true_r in HL. inversion Y2; subst; try congruence; try (match goal with H : missing_ok _ _ |- _ => apply A2 in H; congruence end).
      rewrite <- strip_forwarded in H0 by (rewrite <- A2; congruence). apply (proj1 (IH' f Z2 HS HFl)); auto.
  - intros HN. econstructor; [exact HD|]. intros f Hf. destruct (f_skip_de f) eqn:HS; [now apply CSkipped|].
    destruct (HA' f Hf HS) as [A1 A2]. destruct (f_flatten f) eqn:HFl.
    + destruct (is_option (f_ty f)) eqn:HM; [apply CFlatNone; [exact HFl|now apply A2]|]. apply CFlat; [exact HFl|].
      rewrite <- strip_forwarded by (rewrite <- A2; congruence). apply (IH' f Hf HS HFl). intros k Hk. apply HN. econstructor; eauto.
      apply NeedsFlat; auto. unfold loose. now rewrite HM.
    + destruct (is_option (f_ty f)) eqn:HM; [apply CMissing; [exact HFl|now apply A2]|].
      destruct def; [apply CDefault; auto|]. destruct (f_default f) eqn:HDf; [apply CDefault; auto|].
      apply CGiven; [exact HFl|]. apply HN. econstructor; eauto. change (f_de f) with (key c f). apply NeedsName; [exact HFl|].
      split; [reflexivity|]. split; [exact HDf|]. left. congruence.
Qed.
End CompleteFacts.

(** ** Serialization *)
Section Emits.
Variable items : nat -> item rval.
Variable text_ok : checks.
Notation ser_fields := (Serde.ser_fields text_ok).
Notation ser_field := (Serde.ser_field text_ok).
Notation ser_struct := (Serde.ser_struct text_ok).
Notation c := Serialize.
Notation needs := (needs_key items c (schema_must c)).
Notation ser_ := (ser items text_ok true).
Notation parts := (parts items text_ok).

(** A field for which the schema requires entries that serde may skip *)
Definition skipped_flat (f : field rval) : Prop := f_flatten f = true /\ f_skip_if f <> None /\ loose f = false.

Lemma ser_fields_in ns fs : forall l es f, ser_fields true ns fs (parts l) = Some es -> In f fs -> f_skip_ser f = false -> exists x,
  In x l /\ (skip_now f x = true \/ exists v, ser_field true f (x, ser_ x) = Some v /\ exists e, (if f_flatten f then flat_entries v = Some e else e = [(f_ser f, v)]) /\ incl e es).
Proof.
  induction fs as [|g fs IH]; intros l es f HE Hf HS; [destruct Hf|]. destruct Hf as [->|Hf].
  - destruct l as [|x l]; [discriminate|]. cbn [parts SoundStruct.parts map Serde.ser_fields fst] in HE. fold (parts l) in HE.
    destruct (ser_fields true ns fs (parts l)) as [rest|]; [|discriminate]. exists x. split; [now left|].
    rewrite HS in HE. cbn [orb] in HE. destruct (skip_now f x); [now left|right].
    destruct (ser_field true f (x, ser_ x)) as [v|]; [|discriminate]. exists v. split; [reflexivity|].
    destruct (f_flatten f).
    + destruct (flat_entries v) as [e|]; [|discriminate]. destruct (clashes _ _ _ _); [discriminate|]. injection HE as <-. exists e. split; [reflexivity|]. apply incl_appl, incl_refl.
    + injection HE as <-. eexists. split; [reflexivity|]. intros y [<-|[]]. now left.
  - destruct l as [|x l]; [discriminate|]. cbn [parts SoundStruct.parts map Serde.ser_fields fst] in HE. fold (parts l) in HE.
    destruct (ser_fields true ns fs (parts l)) as [rest|] eqn:ER; [|discriminate].
    destruct (IH l rest f ER Hf HS) as (y & Hy & HC). exists y. split; [now right|]. destruct HC as [HC|(v & H1 & e & H2 & H3)]; [now left|right].
    exists v. split; [exact H1|]. exists e. split; [exact H2|]. intros z Hz. specialize (H3 z Hz).
    destruct (f_skip_ser g || skip_now g x); [now injection HE as <-|]. destruct (ser_field true g (x, ser_ x)) as [w|]; [|discriminate].
    destruct (f_flatten g).
    + destruct (flat_entries w); [|discriminate]. destruct (clashes _ _ _ _); [discriminate|]. injection HE as <-. apply in_or_app. now right.
    + injection HE as <-. now right.
Qed.

Lemma struct_entries n cs ts def fs v sv : d_data (it_decl (items n) cs ts) = DStruct def (Struct fs) -> ser_ v (TAdt n cs ts) = Some sv ->
  exists l es, v = RSeq l /\ ser_fields true (own_names fs) fs (parts l) = Some es /\ sv = struct_value (it_name (items n)) fs es.
Proof.
  intros HD HS. destruct (ser_adt _ _ _ _ _ _ _ _ _ HS HD) as (l & -> & H). cbn [Serde.ser_struct] in H.
  destruct (ser_fields true (own_names fs) fs (parts l)) as [es|] eqn:EE; [|discriminate]. injection H as <-. eauto.
Qed.

(** What is needed is written *)
Lemma fields_written ns def fs l es k :
  (forall f v sv, In f fs -> f_skip_ser f = false -> f_flatten f = true -> needs (strip_option (f_ty f)) k ->
    ser_ v (strip_option (f_ty f)) = Some sv -> exists es, flat_entries sv = Some es /\ In k (map fst es)) ->
  (forall f, In f fs -> f_skip_ser f = false -> ~ skipped_flat f) ->
  (exists f, In f fs /\ takes_part c f /\ field_needs items c (schema_must c) def f k) ->
  ser_fields true ns fs (parts l) = Some es -> In k (map fst es).
Proof.
  intros IH HA (f & Z2 & Z3 & Z4) HE. cbn in Z3.
  destruct (ser_fields_in _ fs l es f HE Z2 Z3) as (x & Hx & HC).
  inversion Z4 as [d f0 HFl HM|d f0 k0 HFl HL HK]; subst.
  - cbn in HM. destruct HC as [HC|(w & H1 & e & H2 & H3)]; [unfold skip_now in HC; now rewrite HM in HC|].
    rewrite HFl in H2. subst e. cbn [key]. change (f_ser f) with (fst (f_ser f, w)). apply in_map, H3. now left.
  - assert (HI : f_skip_if f = None).
    { destruct (f_skip_if f) eqn:EI; [|reflexivity]. exfalso. apply (HA f Z2 Z3). split; [exact HFl|]. split; [congruence|exact HL]. }
    destruct HC as [HC|(w & H1 & e & H2 & H3)]; [unfold skip_now in HC; now rewrite HI in HC|]. rewrite HFl in H2.
    rewrite SerdeFacts.flat_field in H1 by assumption. cbn [fst snd] in H1. destruct (f_required f && negb (present (f_ty f) x)) eqn:EP; [discriminate|].
    assert (HP : present (f_ty f) x = true).
    { destruct (present (f_ty f) x) eqn:EQ; [reflexivity|]. destruct (absent_flat _ _ _ _ _ EQ H1) as [HO _].
      unfold loose in HL. rewrite HO in HL. cbn in HL, EP. rewrite andb_true_r in EP. destruct (f_required f); discriminate. }
    destruct (present_strip _ _ _ _ _ HP H1) as (v' & sv' & _ & Q2 & _ & Q4).
    destruct (IH f v' sv' Z2 Z3 HFl) as (es' & G1 & G2); auto.
    assert (es' = e) by congruence. subst es'. apply in_map_iff in G2 as (z & <- & Hz). apply in_map, H3, Hz.
Qed.

Lemma needs_written t : grounded items c t ->
  (forall f, flat_field items c t f -> ~ skipped_flat f) ->
  forall k v sv, needs t k -> ser_ v t = Some sv -> exists es, flat_entries sv = Some es /\ In k (map fst es).
Proof.
  intros HG. induction HG as [n cs ts def fs HD HF IH]. intros HA k v sv HN HS.
  destruct (struct_entries _ _ _ _ _ _ _ HD HS) as (l & es & -> & HE & ->). exists es. split; [apply flat_struct_value|].
  inversion HN as [n0 cs0 ts0 def0 fs0 f k0 Z1 Z2 Z3 Z4]; subst. rewrite HD in Z1. injection Z1 as <- <-.
  apply (fields_written _ def fs l es k) in HE; eauto.
  - intros g v' sv' Hg HSk HFl HNg HV. apply (IH g Hg HSk HFl) with (v := v'); auto. intros g' Hg'. apply HA. eapply flat_field_flat; eauto.
  - intros g Hg HSk. apply HA. eapply flat_field_self; eauto.
Qed.

(** What is not needed may be missing *)
Definition printable (es : list (string * sval)) : Prop := forall e, In e es -> to_json (snd e) <> None.

Lemma to_json_struct_value n fs es :
  to_json (struct_value n fs es) = option_map (fun es => JObj (mk es)) (omap (fun kv => match kv with (k, b) => option_map (pair k) (to_json b) end) es).
Proof.
  unfold struct_value. destruct (existsb f_flatten fs); [|reflexivity]. cbn [to_json]. rewrite omap_map. f_equal.
  apply omap_ext. intros [k x] _. cbn. now destruct (to_json x).
Qed.
Lemma printable_omap es : printable es -> exists js, omap (fun kv => match kv with (k, b) => option_map (pair k) (to_json b) end) es = Some js
  /\ map fst js = map fst es.
Proof.
  induction es as [|[k x] es IH]; intros H; [now exists []|]. destruct IH as (js & H1 & H2); [intros e He; apply H; now right|].
  pose proof (H (k, x) (or_introl eq_refl)) as HX. cbn [snd] in HX. destruct (to_json x) as [j|] eqn:EJ; [|congruence].
  exists ((k, j) :: js). cbn. fold (omap (fun kv : string * sval => match kv with (k, b) => option_map (pair k) (to_json b) end)).
  rewrite EJ. cbn [option_map]. rewrite H1. split; [reflexivity|]. cbn. now rewrite H2.
Qed.
Lemma omap_printable es js : omap (fun kv => match kv with (k, b) => option_map (pair k) (to_json b) end) es = Some js ->
  printable es /\ map fst js = map fst es.
Proof.
  revert js. induction es as [|[k x] es IH]; intros js; cbn; fold (omap (fun kv : string * sval => match kv with (k, b) => option_map (pair k) (to_json b) end)).
  { intros [= <-]. split; [intros e []|reflexivity]. }
  destruct (to_json x) as [j|] eqn:EJ; cbn [option_map]; [|discriminate]. destruct (omap _ es) as [js'|] eqn:EO; [|discriminate]. intros [= <-].
  destruct (IH js' eq_refl) as [H1 H2]. split; [|cbn; now rewrite H2]. intros e [<-|He]; [cbn; congruence|now apply H1].
Qed.

Lemma none_value t : is_option t = true -> exists sv, ser_ RNone t = Some sv /\ flat_entries sv = Some [].
Proof.
  induction t; try discriminate; intros H.
  - exists VNone. split; reflexivity.
  - rewrite ser_fwd. auto.
  - rewrite ser_weak. destruct (IHt H) as (sv & -> & H2). exists (VSome sv). split; [reflexivity|exact H2].
Qed.

Fixpoint wrap (t : rty) (v : rval) : rval :=
  match t with TOption t => RSome (wrap t v) | TFwd t | TWeak t => wrap t v | _ => v end.
Lemma wrap_value t l sv : ser_ (RSeq l) (strip_option t) = Some sv ->
  exists sv', ser_ (wrap t (RSeq l)) t = Some sv' /\ flat_entries sv' = flat_entries sv /\ present t (wrap t (RSeq l)) = true.
Proof.
  induction t; cbn [strip_option wrap]; intros H; try (exists sv; repeat split; auto; fail).
  - destruct (IHt H) as (sv' & H1 & H2 & H3). exists (VSome sv'). cbn [ser present]. rewrite H1. auto.
  - rewrite ser_fwd. destruct (IHt H) as (sv' & H1 & H2 & H3). exists sv'. split; [exact H1|]. split; [exact H2|]. destruct (wrap t (RSeq l)); exact H3.
  - rewrite ser_weak. destruct (IHt H) as (sv' & H1 & H2 & H3). exists (VSome sv'). rewrite H1.
    assert (HN : wrap t (RSeq l) <> RDead) by (clear; induction t; cbn; congruence).
    split; [destruct (wrap t (RSeq l)); try reflexivity; congruence|]. split; [exact H2|]. destruct (wrap t (RSeq l)); exact H3.
Qed.

Lemma fields_omit ns def k fs :
  (forall f, In f fs -> f_skip_ser f = false -> f_flatten f = true -> forall v sv, ser_ v (strip_option (f_ty f)) = Some sv ->
    to_json sv <> None -> ~ needs (strip_option (f_ty f)) k ->
    exists l sv' es, ser_ (RSeq l) (strip_option (f_ty f)) = Some sv' /\ flat_entries sv' = Some es /\ printable es /\ ~ In k (map fst es)) ->
  (forall f, In f fs -> f_skip_ser f = false -> ~ field_needs items c (schema_must c) def f k) ->
  (forall f, In f fs -> f_skip_ser f = false -> f_flatten f = true -> grounded items c (strip_option (f_ty f))) ->
  (forall f p, In f fs -> f_skip_ser f = false -> f_skip_if f = Some p -> exists x, p x = true) ->
  forall l es, ser_fields true ns fs (parts l) = Some es -> printable es ->
  exists l' es', ser_fields true ns fs (parts l') = Some es' /\ printable es' /\ ~ In k (map fst es').
Proof.
  intros IH' HN' HG' HP'. induction fs as [|f fs IHfs]; intros l es HE HPr.
  { exists [], []. split; [reflexivity|]. split; [intros e []|intros []]. }
  destruct l as [|x l]; [discriminate|]. cbn [parts SoundStruct.parts map Serde.ser_fields fst] in HE. fold (parts l) in HE.
  destruct (ser_fields true ns fs (parts l)) as [rest|] eqn:ER; [|discriminate].
  assert (HPs : printable rest).
  { intros e He. destruct (f_skip_ser f || skip_now f x); [injection HE as <-; now apply HPr|].
    destruct (ser_field true f (x, ser_ x)); [|discriminate]. destruct (f_flatten f).
    - destruct (flat_entries s); [|discriminate]. destruct (clashes _ _ _ _); [discriminate|]. injection HE as <-. apply HPr, in_or_app. now right.
    - injection HE as <-. apply HPr. now right. }
  destruct (IHfs (fun g Hg => IH' g (or_intror Hg)) (fun g Hg => HN' g (or_intror Hg)) (fun g Hg => HG' g (or_intror Hg))
    (fun g p Hg => HP' g p (or_intror Hg)) l rest ER HPs) as (l' & es' & E1 & E2 & E3). clear IHfs.
  (* it is enough to find a value for the field *)
  assert (SK : forall y, f_skip_ser f = true \/ skip_now f y = true -> exists l' es', ser_fields true ns (f :: fs) (parts l') = Some es' /\ printable es' /\ ~ In k (map fst es')).
  { intros y Hy. exists (y :: l'), es'. split; [|now split]. cbn [parts SoundStruct.parts map Serde.ser_fields fst]. fold (parts l'). rewrite E1.
    destruct Hy as [-> | ->]; [reflexivity|now rewrite orb_true_r]. }
  assert (KE : forall y w e, ser_field true f (y, ser_ y) = Some w -> (if f_flatten f then flat_entries w = Some e else e = [(f_ser f, w)]) ->
    printable e -> ~ In k (map fst e) -> exists l' es', ser_fields true ns (f :: fs) (parts l') = Some es' /\ printable es' /\ ~ In k (map fst es')).
  { intros y w e Hw He Hp Hk. destruct (f_skip_ser f) eqn:ES; [now apply (SK y); left|]. destruct (skip_now f y) eqn:EK; [now apply (SK y); right|].
    exists (y :: l'), (e ++ es'). split; [|split].
    - cbn [parts SoundStruct.parts map Serde.ser_fields fst]. fold (parts l'). rewrite E1, ES, EK. cbn [orb]. rewrite Hw.
      destruct (f_flatten f) eqn:EF; [|now subst e]. rewrite He.
      assert (HM : flat_map_ty f = false).
      { unfold flat_map_ty. pose proof (HG' f (or_introl eq_refl) ES EF) as HGf. now inversion HGf. }
      unfold clashes. now rewrite HM.
    - intros z Hz. apply in_app_iff in Hz as [Hz|Hz]; auto.
    - rewrite map_app, in_app_iff. tauto. }
  destruct (f_skip_ser f) eqn:ES; [apply (SK x); now left|]. cbn [orb] in HE.
  destruct (skip_now f x) eqn:EK; [apply (SK x); now right|].
  destruct (ser_field true f (x, ser_ x)) as [w|] eqn:EW; [|discriminate].
  pose proof (HN' f (or_introl eq_refl) ES) as HNf.
  destruct (f_flatten f) eqn:EF.
  - destruct (flat_entries w) as [e|] eqn:EE; [|discriminate]. destruct (clashes _ _ _ _); [discriminate|]. injection HE as <-.
    assert (HPe : printable e) by (intros z Hz; apply HPr, in_or_app; now left).
    destruct (loose f) eqn:EL.
    + unfold loose in EL. apply andb_true_iff in EL as [EL1 EL2]. apply negb_true_iff in EL2.
      destruct (none_value _ EL1) as (s & Hs1 & Hs2). apply (KE RNone s []); auto.
      * rewrite SerdeFacts.flat_field by assumption. rewrite EL2. exact Hs1.
      * intros z [].
    + rewrite SerdeFacts.flat_field in EW by assumption. cbn [fst snd] in EW. destruct (f_required f && negb (present (f_ty f) x)) eqn:EP; [discriminate|].
      assert (HPx : present (f_ty f) x = true).
      { destruct (present (f_ty f) x) eqn:EQ; [reflexivity|]. destruct (absent_flat _ _ _ _ _ EQ EW) as [HO _].
        unfold loose in EL. rewrite HO in EL. cbn in EL, EP. rewrite andb_true_r in EP. destruct (f_required f); discriminate. }
      destruct (present_strip _ _ _ _ _ HPx EW) as (v' & sv' & _ & Q2 & _ & Q4).
      pose proof (HG' f (or_introl eq_refl) ES EF) as HGf. inversion HGf as [n' cs' ts' def' fs' HD' _ HT].
      destruct (struct_entries n' cs' ts' def' fs' v' sv' HD') as (l2 & e2 & -> & HE2 & ->); [now rewrite HT|].
      rewrite flat_struct_value in Q4. assert (e2 = e) by congruence. subst e2.
      destruct (IH' f (or_introl eq_refl) ES EF _ _ Q2) as (l3 & sv3 & e3 & G1 & G2 & G3 & G4).
      { rewrite to_json_struct_value. destruct (printable_omap e HPe) as (js & -> & _). discriminate. }
      { intros HK. apply HNf. now apply NeedsFlat. }
      destruct (wrap_value (f_ty f) l3 sv3 G1) as (sv4 & W1 & W2 & W3).
      apply (KE (wrap (f_ty f) (RSeq l3)) sv4 e3); auto; [|congruence]. rewrite SerdeFacts.flat_field by assumption. cbn [fst snd]. rewrite W3, andb_false_r. exact W1.
  - injection HE as <-. destruct (String.eqb_spec k (f_ser f)) as [->|HK].
    + destruct (f_skip_if f) as [p|] eqn:EI.
      * destruct (HP' f p (or_introl eq_refl) ES EI) as (y & Hy). apply (SK y). right. unfold skip_now. now rewrite EI.
      * exfalso. apply HNf. now apply (NeedsName items c (schema_must c)).
    + apply (KE x w [(f_ser f, w)]); auto.
      * intros z [<-|[]]. apply HPr. now left.
      * cbn. intros [HX|[]]. congruence.
Qed.

Lemma unneeded_omitted t : grounded items c t ->
  (forall f p, flat_field items c t f -> f_skip_if f = Some p -> exists x, p x = true) ->
  forall k v sv, ser_ v t = Some sv -> to_json sv <> None -> ~ needs t k ->
  exists l sv' es, ser_ (RSeq l) t = Some sv' /\ flat_entries sv' = Some es /\ printable es /\ ~ In k (map fst es).
Proof.
  intros HG. induction HG as [n cs ts def fs HD HF IH]. intros HP k v sv HS HJ HN.
  destruct (struct_entries _ _ _ _ _ _ _ HD HS) as (l & es & -> & HE & ->).
  rewrite to_json_struct_value in HJ. destruct (omap _ es) as [js|] eqn:EO; [|cbn in HJ; congruence]. apply omap_printable in EO as [HPr _]. clear HJ HS js.
  assert (IH' : forall f, In f fs -> f_skip_ser f = false -> f_flatten f = true -> forall v sv, ser_ v (strip_option (f_ty f)) = Some sv ->
    to_json sv <> None -> ~ needs (strip_option (f_ty f)) k ->
    exists l sv' es, ser_ (RSeq l) (strip_option (f_ty f)) = Some sv' /\ flat_entries sv' = Some es /\ printable es /\ ~ In k (map fst es)).
  { intros f Hf HSk HFl v sv HV HJ HNf. apply (IH f Hf HSk HFl) with (v := v) (sv := sv); auto.
    intros g p' Hg. apply HP. eapply flat_field_flat; eauto. }
  assert (HN' : forall f, In f fs -> f_skip_ser f = false -> ~ field_needs items c (schema_must c) def f k).
  { intros f Hf HSk Hk. apply HN. econstructor; eauto. }
  assert (HG' : forall f, In f fs -> f_skip_ser f = false -> f_flatten f = true -> grounded items c (strip_option (f_ty f))) by exact HF.
  assert (HP' : forall f p, In f fs -> f_skip_ser f = false -> f_skip_if f = Some p -> exists x, p x = true).
  { intros f p Hf HSk. apply HP. eapply flat_field_self; eauto. }
  enough (HL : forall ns l es, ser_fields true ns fs (parts l) = Some es -> printable es ->
    exists l' es', ser_fields true ns fs (parts l') = Some es' /\ printable es' /\ ~ In k (map fst es')).
  { destruct (HL _ l es HE HPr) as (l' & es' & H1 & H2 & H3). exists l', (struct_value (it_name (items n)) fs es'), es'.
    split; [|split; [apply flat_struct_value|split; assumption]]. cbn [ser]. unfold ser_decl. rewrite HD. cbn [ser_data Serde.ser_struct].
    change (map (fun x => (x, ser_ x)) l') with (parts l'). now rewrite H1. }
  intros ns l' es' HE' HPr'. now apply (fields_omit ns def k fs) with (l := l') (es := es').
Qed.
End Emits.
