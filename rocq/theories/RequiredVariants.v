(** The properties and the required properties that a derived enum has for its struct variants. *)
From Coq Require Import String Ascii List ZArith Bool Lia.
From Verif Require Import Json JsonFacts Utf8 SchemaApi Transform Validate ValidateFacts ValidateKw Private PrivateProps PrivateTag
  ShapeFacts PrivateFlatten PrivateForFlatten Generate SerValue Types TypesShape Serde SerdeFacts Derivation SoundBase SoundStruct
  SoundTypes Sound Required RequiredDerive RequiredSerde.
Import ListNotations.
Open Scope string_scope.
Open Scope list_scope.

(** ** Specification *)
(** The schema has the property [k]; the schema requires it. *)
Definition has_property (doc : json) (k : string) : Prop :=
  exists m ps, doc = JObj m /\ mget "properties" m = Some (JObj ps) /\ mget k ps <> None.
Definition requires (doc : json) (k : string) : Prop :=
  exists m rs, doc = JObj m /\ mget "required" m = Some (JArr rs) /\ In (JStr k) rs.

(** The property [k] of the schema [e] has the schema [s]. *)
Definition property_is (e : json) (k : string) (s : json) : Prop :=
  exists m ps, e = JObj m /\ mget "properties" m = Some (JObj ps) /\ mget k ps = Some s.
(** The alternatives that the schema offers *)
Definition alternatives (doc : json) (l : list json) : Prop :=
  exists m, doc = JObj m /\ (mget "oneOf" m = Some (JArr l) \/ mget "anyOf" m = Some (JArr l)).

(** "required" is absent, or has each of its names once. *)
Definition required_once (s : json) : Prop := forall l, s_get "required" s = Some (JArr l) -> NoDup l.

Definition v_takes_part {X} (c : contract) (v : variant X) : Prop :=
  match c with Serialize => v_skip_ser v = false | Deserialize => v_skip_de v = false end.
Definition v_key {X} (c : contract) (v : variant X) : string := match c with Serialize => v_ser v | Deserialize => v_de v end.

(** [s] is what the alternative [e] says of the fields of the variant [v]. *)
Definition fields_schema {X} (c : contract) (tg : tagging) (v : variant X) (e s : json) : Prop :=
  if v_untagged v then e = s else
  match tg with
  | Untagged | Internal _ => e = s
  | External => property_is e (v_key c v) s /\ requires e (v_key c v)
  | Adjacent tag content => property_is e content s /\ requires e content /\ requires e tag
  end.
(** The tag stands beside the fields. *)
Definition beside {X} (tg : tagging) (v : variant X) (k : string) : Prop :=
  v_untagged v = false /\ tg = Internal k.

(** What is asked of the declaration of an enum: nothing attached to it or to a struct variant is a
    keyword that affects validation, and the fields of such a variant are flattened only if they hold
    structs with named fields, the same holding for those. *)
Record plain_enum {X} (items : nat -> item X) (c : contract) (d : decl X) (vs : list (variant X)) : Prop := {
  pe_meta : plain_meta (d_meta d);
  pe_variant : forall v fs, In v vs -> v_takes_part c v -> v_style v = Struct fs -> plain_meta (v_meta v);
  pe_flat : forall v fs f, In v vs -> v_takes_part c v -> v_style v = Struct fs -> In f fs -> takes_part c f -> f_flatten f = true ->
    (exists i cs ts def fs', strip_option (f_ty f) = TAdt i cs ts /\ d_data (it_decl (items i) cs ts) = DStruct def (Struct fs'))
    /\ forall i cs ts def fs', within_flat items c (strip_option (f_ty f)) (TAdt i cs ts) ->
         d_data (it_decl (items i) cs ts) = DStruct def (Struct fs') -> plain_struct items c (it_decl (items i) cs ts) fs' }.

(** ** The schema of an enum *)
Lemma rq_properties {X} (items : nat -> item X) c def fs m : rq items c def fs m ->
  (forall k, has_property (JObj m) k <-> exists f, In f fs /\ takes_part c f /\ field_has items c f k) /\
  (forall k, requires (JObj m) k <-> exists f, In f fs /\ takes_part c f /\ field_needs items c (schema_must c) def f k).
Proof.
  intros HQ. destruct (rq_shape _ _ _ _ _ HQ) as (_ & _ & S3 & S4). split; intros k.
  - rewrite <- (rq_props _ _ _ _ _ HQ). unfold props_of. split.
    + intros (m' & ps & [= <-] & Hm & Hk). now rewrite Hm.
    + intros HX. destruct S3 as [S3|(ps & S3)]; rewrite S3 in HX; [cbn in HX; congruence|]. now exists m, ps.
  - rewrite <- (rq_needs _ _ _ _ _ HQ). unfold required_of. split.
    + intros (m' & rs & [= <-] & Hm & Hk). now rewrite Hm.
    + intros HX. destruct S4 as [S4|(rs & S4)]; rewrite S4 in HX; [destruct HX|]. now exists m, rs.
Qed.

Lemma rq_property {X} (items : nat -> item X) c def fs m : rq items c def fs m -> forall l1 f l2, fs = l1 ++ f :: l2 -> takes_part c f -> f_flatten f = false ->
  (forall g, In g l2 -> takes_part c g -> ~ field_has items c g (key c f)) ->
  exists sub, property_is (JObj m) (key c f) (insert_default def f (field_mutators f sub)).
Proof.
  intros HQ l1 f l2 HE HT HF HL. destruct (rq_kept _ _ _ _ _ HQ l1 f l2 HE HT HF HL) as (sub & H). exists sub.
  unfold props_of in H. destruct (mget "properties" m) as [[| | | | |ps]|] eqn:EP; try discriminate H. now exists m, ps.
Qed.
Lemma rq_required {X} (items : nat -> item X) c def fs m : rq items c def fs m -> distinct_names items c fs ->
  (forall f, In f fs -> takes_part c f -> f_flatten f = true -> all_distinct items c (strip_option (f_ty f))) -> required_once (JObj m).
Proof. intros HQ HD HA l HL. cbn [s_get] in HL. pose proof (rq_once _ _ _ _ _ HQ HD HA) as H. unfold required_of in H. now rewrite HL in H. Qed.

Lemma meta_get l : forall m, plain_meta l -> exists m', insert_all l (JObj m) = JObj m' /\ forall k, In k kws -> mget k m' = mget k m.
Proof.
  induction l as [|[k x] l IH]; intros m W; [now exists m|]. rewrite insert_all_cons. unfold insert. cbn [fst snd ensure_obj ensure_object].
  destruct (IH (mset k x m)) as (m' & E & H); [intros k' x' Hin; apply (W k' x'); now right|]. exists m'. split; [exact E|].
  intros k' Hk. rewrite H, mget_mset by exact Hk. destruct (String.eqb_spec k' k) as [->|]; [|reflexivity].
  destruct (W k x (or_introl eq_refl)). contradiction.
Qed.
Lemma kws_words : In "properties" kws /\ In "required" kws /\ In "oneOf" kws /\ In "anyOf" kws.
Proof. repeat split; in_names. Qed.

Lemma same_has m m' k : mget "properties" m' = mget "properties" m -> has_property (JObj m') k <-> has_property (JObj m) k.
Proof. intros H. split; intros (x & ps & [= <-] & H1 & H2); [exists m|exists m']; exists ps; repeat split; congruence. Qed.
Lemma same_requires m m' k : mget "required" m' = mget "required" m -> requires (JObj m') k <-> requires (JObj m) k.
Proof. intros H. split; intros (x & ps & [= <-] & H1 & H2); [exists m|exists m']; exists ps; repeat split; congruence. Qed.

Section Enum.
Context {X St : Type}.
Variable items : nat -> item X.
Variable S : settings St.
Variable seen : map_t -> Prop.
Notation c := (s_contract S).
Variable tg : tagging.

(** What the theorem says of an alternative *)
Definition describes (v : variant X) (fs : list (field X)) (e : json) : Prop :=
  exists s, fields_schema c tg v e s
  /\ (forall k, has_property s k <-> beside tg v k \/ exists f, In f fs /\ takes_part c f /\ field_has items c f k)
  /\ (forall k, requires s k <-> beside tg v k \/ exists f, In f fs /\ takes_part c f /\ field_needs items c (schema_must c) false f k)
  /\ (forall f, In f fs -> takes_part c f -> f_flatten f = true -> grounded items c (strip_option (f_ty f)))
  /\ (forall l1 f l2, fs = l1 ++ f :: l2 -> takes_part c f -> f_flatten f = false -> (forall g, In g l2 -> takes_part c g -> ~ field_has items c g (key c f)) ->
       ~ beside tg v (key c f) -> exists sub, property_is s (key c f) (insert_default false f (field_mutators f sub)))
  /\ (distinct_names items c fs -> (forall f, In f fs -> takes_part c f -> f_flatten f = true -> all_distinct items c (strip_option (f_ty f))) ->
       (forall f k, In f fs -> takes_part c f -> field_has items c f k -> ~ beside tg v k) -> required_once s).
Definition vq (v : variant X) (e : json) : Prop := forall fs, v_style v = Struct fs -> describes v fs e.

Variable F : rty -> Prop.
Hypothesis HFl : forall i cs ts def fs f, F (TAdt i cs ts) -> d_data (it_decl (items i) cs ts) = DStruct def (Struct fs) ->
  In f fs -> takes_part c f -> f_flatten f = true -> F (strip_option (f_ty f)).
Hypothesis HW : forall i cs ts def fs, F (TAdt i cs ts) -> d_data (it_decl (items i) cs ts) = DStruct def (Struct fs) ->
  plain_struct items c (it_decl (items i) cs ts) fs.
Notation well := (well items S F).
Variable A : rty -> json -> Prop.
Notation post_ := (post (St := St) S seen A well).

Lemma any_field (f : field X) (Q : json -> Prop) k : (forall s, post_ Q (k s)) -> post_ Q (field_schema f k).
Proof. intros H. unfold field_schema. destruct (f_required f); cbn [Derivation.post]; auto. Qed.
Lemma any_tuple (Q : json -> Prop) : forall (fs : list (field X)) k, (forall ss, post_ Q (k ss)) -> post_ Q (tuple_fields c fs k).
Proof.
  induction fs as [|f fs IH]; intros k H; cbn [tuple_fields]; [apply H|]. destruct (included _ _ _); [|now apply IH].
  apply any_field. intros s. apply IH. auto.
Qed.

Variable vs : list (variant X).
Hypothesis HV : forall v fs f, In v vs -> v_takes_part c v -> v_style v = Struct fs -> In f fs -> takes_part c f -> f_flatten f = true ->
  F (strip_option (f_ty f)) /\
  exists i cs ts def fs', strip_option (f_ty f) = TAdt i cs ts /\ d_data (it_decl (items i) cs ts) = DStruct def (Struct fs').
Hypothesis HM : forall v fs, In v vs -> v_takes_part c v -> v_style v = Struct fs -> plain_meta (v_meta v).

(** The schema of the fields before a tag is added *)
Definition inner (v : variant X) (s : json) : Prop := forall fs, v_style v = Struct fs ->
  exists m, s = JObj m /\ rq items c false fs m /\
  (forall f, In f fs -> takes_part c f -> f_flatten f = true -> grounded items c (strip_option (f_ty f))).

Lemma struct_post v fs deny (Q : json -> Prop) k : In v vs -> v_takes_part c v -> v_style v = Struct fs -> (forall s, inner v s -> post_ Q (k s)) ->
  post_ Q (struct_prog false deny c fs k).
Proof.
  intros Hv HT ES HK. unfold struct_prog. destruct (rq_start items c false deny) as (m & -> & H).
  apply (fields_post items S seen F A) with (done := []); auto; [intros f Hf; eapply HV; eauto|intros f []|].
  cbn [app]. intros m' H' HG. apply HK. intros fs' E'. rewrite ES in E'. injection E' as <-. now exists m'.
Qed.

Lemma style_post v deny (Q : json -> Prop) k : In v vs -> v_takes_part c v -> (forall s, inner v s -> post_ Q (k s)) ->
  post_ Q (style_prog false deny c (v_style v) k).
Proof.
  intros Hv HT HK. destruct (v_style v) as [|f|fs|fs] eqn:ES; cbn [style_prog].
  - cbn. intros s _. apply HK. intros fs E. congruence.
  - apply any_field. intros s. apply HK. intros fs E. congruence.
  - apply any_tuple. intros ss. apply HK. intros fs' E. congruence.
  - now apply (struct_post v).
Qed.

Lemma untagged_ok v s : In v vs -> v_takes_part c v -> v_untagged v = true \/ tg = Untagged -> inner v s -> vq v (insert_all (v_meta v) s).
Proof.
  intros Hv HT HU HI fs ES. destruct (HI fs ES) as (m & -> & HQ & HG). destruct (rq_meta items c false fs _ m (HM v fs Hv HT ES) HQ) as (m' & -> & HQ').
  exists (JObj m'). split; [|split; [|split; [|split; [exact HG|split; [eauto using rq_property|eauto using rq_required]]]]].
  - unfold fields_schema. destruct HU as [->| ->]; [reflexivity|]. now destruct (v_untagged v).
  - intros k. rewrite (proj1 (rq_properties _ _ _ _ _ HQ')). split; [tauto|]. intros [[H1 H2]|H]; [|exact H]. destruct HU; congruence.
  - intros k. rewrite (proj2 (rq_properties _ _ _ _ _ HQ')). split; [tauto|]. intros [[H1 H2]|H]; [|exact H]. destruct HU; congruence.
Qed.

(** The fields below a property of the alternative *)
Lemma below_ok v s e : In v vs -> v_takes_part c v -> (forall k, tg <> Internal k) -> inner v s ->
  (forall fs, v_style v = Struct fs -> fields_schema c tg v e s) -> vq v e.
Proof.
  intros Hv HT HN HI HF fs ES. destruct (HI fs ES) as (m & -> & HQ & HG). exists (JObj m). split; [now apply (HF fs)|].
  split; [|split; [|split; [exact HG|split; [eauto using rq_property|eauto using rq_required]]]]; intros k.
  - rewrite (proj1 (rq_properties _ _ _ _ _ HQ)). split; [tauto|]. intros [[_ H]|H]; [now elim (HN k)|exact H].
  - rewrite (proj2 (rq_properties _ _ _ _ _ HQ)). split; [tauto|]. intros [[_ H]|H]; [now elim (HN k)|exact H].
Qed.

Lemma v_name_key (v : variant X) : v_name c v = v_key c v.
Proof. unfold v_name. now destruct c. Qed.

Lemma external_ok v s : In v vs -> v_takes_part c v -> v_untagged v = false -> tg = External -> inner v s ->
  vq v (insert_all (v_meta v) (new_externally_tagged_enum_variant (v_name c v) s)).
Proof.
  intros Hv HT HU ET HI. eapply below_ok; eauto; [congruence|]. intros fs ES. unfold new_externally_tagged_enum_variant, obj.
  match goal with |- context [insert_all _ (JObj ?m)] => destruct (meta_get (v_meta v) m (HM v fs Hv HT ES)) as (m' & -> & H) end.
  destruct kws_words as (K1 & K2 & _). apply H in K1, K2. clear H. unfold fields_schema. rewrite HU, ET, v_name_key in *. split.
  - exists m', [(v_key c v, s)]. split; [reflexivity|]. split; [rewrite K1; reflexivity|]. cbn. now rewrite String.eqb_refl.
  - exists m', [JStr (v_key c v)]. split; [reflexivity|]. split; [rewrite K2; reflexivity|now left].
Qed.

Lemma mk_last {B} (k1 k2 : string) (x y : B) : mget k2 (mk [(k1, x); (k2, y)]) = Some y.
Proof. unfold mk, mappend. cbn [fold_left fst snd]. rewrite mget_mset, String.eqb_refl. reflexivity. Qed.

Lemma adjacent_ok v s deny tag content : In v vs -> v_takes_part c v -> v_untagged v = false -> tg = Adjacent tag content -> inner v s ->
  vq v (insert_all (v_meta v) (adjacent_schema deny tag content (v_name c v) (Some s))).
Proof.
  intros Hv HT HU ET HI. eapply below_ok; eauto; [congruence|]. intros fs ES. unfold adjacent_schema, obj at 1.
  match goal with |- context [insert_all _ (JObj ?m)] => destruct (meta_get (v_meta v) m (HM v fs Hv HT ES)) as (m' & -> & H) end.
  destruct kws_words as (K1 & K2 & _). apply H in K1, K2. clear H. unfold fields_schema. rewrite HU, ET.
  assert (K2' : mget "required" m' = Some (JArr [JStr tag; JStr content])) by (rewrite K2; destruct deny; reflexivity).
  split; [|split].
  - exists m', (mk [(tag, obj [("type", JStr "string"); ("const", JStr (v_name c v))]); (content, s)]). split; [reflexivity|].
    split; [rewrite K1; destruct deny; reflexivity|]. apply mk_last.
  - exists m', [JStr tag; JStr content]. split; [reflexivity|]. split; [exact K2'|right; now left].
  - exists m', [JStr tag; JStr content]. split; [reflexivity|]. split; [exact K2'|now left].
Qed.

Lemma internal_ok v s deny tag : In v vs -> v_takes_part c v -> v_untagged v = false -> tg = Internal tag -> inner v s ->
  vq v (insert_all (v_meta v) (apply_internal_tag tag (v_name c v) deny s)).
Proof.
  intros Hv HT HU ET HI fs ES. destruct (HI fs ES) as (m & -> & HQ & HG). rewrite tagged_obj.
  destruct (meta_get (v_meta v) (PrivateTag.tagged tag (v_name c v) deny m) (HM v fs Hv HT ES)) as (m' & -> & H).
  destruct kws_words as (K1 & K2 & _). apply H in K1, K2. clear H.
  destruct (rq_shape _ _ _ _ _ HQ) as (_ & _ & S3 & S4). assert (U : usual m) by now split.
  rewrite (tagged_get _ _ _ _ _ U) in K1. rewrite (tagged_get _ _ _ _ _ U) in K2. cbn [String.eqb Ascii.eqb Bool.eqb] in K1, K2.
  exists (JObj m'). split; [|split; [|split; [|split; [exact HG|split]]]].
  - unfold fields_schema. now rewrite HU, ET.
  - intros k. rewrite <- (rq_props _ _ _ _ _ HQ). unfold beside. split.
    + intros (x & ps & [= <-] & Hm & Hk). rewrite K1 in Hm. injection Hm as <-. rewrite mget_mset in Hk.
      destruct (String.eqb_spec k tag) as [E|]; [left; rewrite E; now split|now right].
    + intros H. exists m', (mset tag (tag_schema (v_name c v)) (props_of m)). split; [reflexivity|]. split; [exact K1|]. rewrite mget_mset.
      destruct (String.eqb_spec k tag) as [->|N]; [discriminate|]. destruct H as [[_ H]|H]; [congruence|exact H].
  - intros k. rewrite <- (rq_needs _ _ _ _ _ HQ). unfold beside. split.
    + intros (x & rs & [= <-] & Hm & Hk). rewrite K2 in Hm. injection Hm as <-. destruct Hk as [[= <-]|Hk]; auto.
    + intros H. exists m', (JStr tag :: required_of m). split; [reflexivity|]. split; [exact K2|].
      destruct H as [[_ H]|H]; [left; congruence|now right].
  - intros l1 f l2 HE HTf HF HL HB. destruct (rq_kept _ _ _ _ _ HQ l1 f l2 HE HTf HF HL) as (sub & HK). exists sub, m'.
    exists (mset tag (tag_schema (v_name c v)) (props_of m)). split; [reflexivity|]. split; [exact K1|]. rewrite mget_mset.
    destruct (String.eqb_spec (key c f) tag) as [E|_]; [|exact HK]. elim HB. rewrite E. now split.
  - intros HD HA HB l HL. cbn [s_get] in HL. rewrite K2 in HL. injection HL as <-. constructor; [|now apply (rq_once _ _ _ _ _ HQ)].
    intros H. apply (rq_needs _ _ _ _ _ HQ) in H as (f & Hf & HTf & Hn). apply field_needs_has in Hn. apply (HB f tag Hf HTf Hn). now split.
Qed.

Lemma takes_included (v : variant X) : included (v_skip_de v) (v_skip_ser v) c = true <-> v_takes_part c v.
Proof. unfold included, v_takes_part. destruct c; rewrite negb_true_iff; tauto. Qed.

Lemma variants_post (Q : json -> Prop) one : forall l k, incl l vs ->
  (forall v k', In v vs -> v_takes_part c v -> (forall s, vq v s -> post_ Q (k' s)) -> post_ Q (one v k')) ->
  (forall ss, (forall v, In v l -> v_takes_part c v -> exists s, In s ss /\ vq v s) -> post_ Q (k ss)) -> post_ Q (variants c one l k).
Proof.
  induction l as [|v l IH]; intros k HI HO HK; cbn [variants].
  { apply HK. intros v []. }
  assert (Hv : In v vs) by (apply HI; now left). assert (HI' : incl l vs) by (intros x Hx; apply HI; now right).
  destruct (included _ _ _) eqn:EI.
  - apply takes_included in EI. apply HO; auto. intros s Hs. apply IH; auto. intros ss Hss. apply HK.
    intros w [<-|Hw] HT; [exists s; split; [now left|exact Hs]|]. destruct (Hss w Hw HT) as (s' & H1 & H2). exists s'. split; [now right|exact H2].
  - apply IH; auto. intros ss Hss. apply HK. intros w [<-|Hw] HT; [|auto]. apply takes_included in HT. congruence.
Qed.

Definition enum_ok (s : json) : Prop := forall v fs, In v vs -> v_takes_part c v -> v_style v = Struct fs ->
  exists l e, alternatives s l /\ In e l /\ describes v fs e.

Lemma schemas_ok d l ss unique : plain_meta d -> (forall v fs, In v vs -> v_style v = Struct fs -> In v l) -> forall more,
  (forall v, In v l -> v_takes_part c v -> exists s, In s ss /\ vq v s) -> enum_ok (insert_all d (variant_schemas unique l (more ++ ss))).
Proof.
  intros HD HL more HSs v fs Hv HT ES. destruct (HSs v (HL v fs Hv ES) HT) as (e & He & HQ). unfold variant_schemas, obj.
  match goal with |- context [insert_all _ (JObj ?m)] => destruct (meta_get d m HD) as (m' & -> & H) end.
  destruct kws_words as (_ & _ & K1 & K2). apply H in K1, K2. exists (more ++ ss), e. split; [|split; [apply in_or_app; now right|now apply HQ]].
  exists m'. split; [reflexivity|]. destruct (unique && negb (existsb v_untagged l)); [left; rewrite K1|right; rewrite K2]; reflexivity.
Qed.

Lemma enum_post d deny : plain_meta d -> post_ enum_ok (enum_prog items deny c tg vs (fun s => Ret (insert_all d s))).
Proof.
  intros HD. unfold enum_prog. remember vs as ws eqn:EV in |- *. destruct ws as [|v0 ws].
  { cbn [Derivation.post]. intros v fs Hv. rewrite <- EV in Hv. destruct Hv. }
  rewrite EV. clear v0 ws EV.
  assert (UP : forall v Q k', In v vs -> v_takes_part c v -> v_untagged v = true \/ tg = Untagged -> (forall s, vq v s -> post_ Q (k' s)) ->
    post_ Q (untagged_variant deny c v true k')).
  { intros v Q k' Hv HT HU HK. unfold untagged_variant. apply style_post; auto. intros s Hs. apply HK, untagged_ok; auto. }
  remember tg as tg0 eqn:ET in |- *. destruct tg0 as [| |tag|tag content].
  - destruct (filter (fun v => negb (plain_unit v)) vs) as [|v0 l0] eqn:EF.
    + cbn [Derivation.post]. intros v fs Hv HT ES. exfalso.
      assert (H : In v (filter (fun v => negb (plain_unit v)) vs)) by (apply filter_In; split; [exact Hv|unfold plain_unit, v_is_unit; now rewrite ES]).
      rewrite EF in H. destruct H.
    + rewrite <- EF. apply variants_post.
      * intros v Hv. now apply filter_In in Hv as [Hv _].
      * intros v k' Hv HT HK. unfold external_variant. destruct (v_untagged v) eqn:EU; [now apply UP; auto|].
        destruct (v_is_unit v) eqn:EN.
        { apply HK. intros fs ES. unfold v_is_unit in EN. now rewrite ES in EN. }
        unfold untagged_variant. apply style_post; auto. intros s Hs. apply HK. apply external_ok; auto.
      * intros ss Hss. cbn [Derivation.post].
        assert (HL : forall v fs, In v vs -> v_style v = Struct fs -> In v (filter (fun v => negb (plain_unit v)) vs))
          by (intros v fs Hv ES; apply filter_In; split; [exact Hv|unfold plain_unit, v_is_unit; now rewrite ES]).
        destruct (filter plain_unit vs) eqn:EU; [apply (schemas_ok d _ ss true HD HL [])|apply (schemas_ok d _ ss true HD HL [_])]; auto.
  - apply variants_post; [apply incl_refl| |].
    + intros v k' Hv HT HK. apply UP; auto.
    + intros ss Hss. cbn [Derivation.post]. apply (schemas_ok d vs ss false HD) with (more := []); auto.
  - apply variants_post; [apply incl_refl| |].
    + intros v k' Hv HT HK. unfold internal_variant. destruct (v_untagged v) eqn:EU; [now apply UP; auto|]. cbv zeta.
      assert (HN : (forall fs, v_style v <> Struct fs) -> forall s, post_ enum_ok (k' (insert_all (v_meta v) (apply_internal_tag tag (v_name c v) deny s))))
        by (intros H s; apply HK; intros fs ES; now elim (H fs)).
      destruct (v_style v) as [|f|fs|fs] eqn:ES.
      * cbn. intros s _. apply HN. discriminate.
      * assert (HN' := HN ltac:(discriminate)). destruct (f_required f); [now apply any_field|]. cbn [Derivation.post]. intros s _.
        destruct (for_internal_newtype _ _ _) as [s' [|]]; [apply HN'|cbn [Derivation.post]; auto].
      * apply any_tuple. intros ss. apply HN. discriminate.
      * apply (struct_post v); auto. intros s Hs. apply HK. apply internal_ok; auto.
    + intros ss Hss. cbn [Derivation.post]. apply (schemas_ok d vs ss true HD) with (more := []); auto.
  - apply variants_post; [apply incl_refl| |].
    + intros v k' Hv HT HK. unfold adjacent_variant. destruct (v_untagged v) eqn:EU; [now apply UP; auto|].
      destruct (v_is_unit v) eqn:EN.
      { apply HK. intros fs ES. unfold v_is_unit in EN. now rewrite ES in EN. }
      unfold untagged_variant. apply style_post; auto. intros s Hs. apply HK. apply adjacent_ok; auto.
    + intros ss Hss. cbn [Derivation.post]. apply (schemas_ok d vs ss true HD) with (more := []); auto.
Qed.
End Enum.

Theorem derives_enum {X St} (items : nat -> item X) (S : settings St) seen ans (R : rty -> Prop) i cs ts tg vs s :
  d_data (it_decl (items i) cs ts) = DEnum tg vs -> plain_enum items (s_contract S) (it_decl (items i) cs ts) vs ->
  R (TAdt i cs ts) -> derives (info items) R S ans seen (TAdt i cs ts) s -> enum_ok items S tg vs s.
Proof.
  intros HD [HM1 HM2 HF] HR H.
  set (F := fun u => exists v fs f, In v vs /\ v_takes_part (s_contract S) v /\ v_style v = Struct fs /\ In f fs /\ takes_part (s_contract S) f /\
    f_flatten f = true /\ within_flat items (s_contract S) (strip_option (f_ty f)) u).
  assert (HFl : forall i cs ts def fs f, F (TAdt i cs ts) -> d_data (it_decl (items i) cs ts) = DStruct def (Struct fs) ->
    In f fs -> takes_part (s_contract S) f -> f_flatten f = true -> F (strip_option (f_ty f))).
  { intros i' cs' ts' def' fs' f' (v & fs & f & G1 & G2 & G3 & G4 & G5 & G6 & G7) G8 G9 G10 G11. exists v, fs, f. repeat split; auto.
    eapply WithinFlat; eauto. }
  assert (HW : forall i cs ts def fs, F (TAdt i cs ts) -> d_data (it_decl (items i) cs ts) = DStruct def (Struct fs) ->
    plain_struct items (s_contract S) (it_decl (items i) cs ts) fs).
  { intros i' cs' ts' def' fs' (v & fs & f & G1 & G2 & G3 & G4 & G5 & G6 & G7) G8.
    destruct (HF v fs f G1 G2 G3 G4 G5 G6) as [_ HP]. eapply HP; eauto. }
  assert (HWell : forall u d, R u -> derives (info items) R S ans seen u d -> well items S F u d).
  { apply derives_inv. intros u _. cbn [info t_body]. now apply well_post. }
  inversion H as [t0 s0 HRun]; subst. cbn [info t_body body] in HRun. inversion HRun as [|?|?|?|k s1 HRun' Y1 Y2|?]; subst.
  revert HRun'. unfold decl_prog. rewrite HD. cbn [data_prog]. intros HRun'.
  apply (run_post (info items) R S ans seen (fun _ _ => True) (well items S F)) with (p := enum_prog items (d_deny (it_decl (items i) cs ts)) (s_contract S) tg vs
     (fun s => Ret (insert_all (d_meta (it_decl (items i) cs ts)) s))); auto.
  apply enum_post; auto. intros v fs f G1 G2 G3 G4 G5 G6. split.
  - exists v, fs, f. repeat split; auto. constructor.
  - now destruct (HF v fs f G1 G2 G3 G4 G5 G6) as [HP _].
Qed.

(** ** Deserialization *)
Theorem fields_complete_iff {X} (items : nat -> item X) fs keys :
  (forall f, In f fs -> takes_part Deserialize f -> f_flatten f = true -> grounded items Deserialize (strip_option (f_ty f))) ->
  (forall f, In f fs -> takes_part Deserialize f -> agreeing items f) ->
  (forall f g, In f fs -> takes_part Deserialize f -> f_flatten f = true -> flat_field items Deserialize (strip_option (f_ty f)) g -> agreeing items g) ->
  (forall f, In f fs -> field_complete items keys false f) <->
  (forall k, (exists f, In f fs /\ takes_part Deserialize f /\ field_needs items Deserialize (schema_must Deserialize) false f k) -> In k keys).
Proof.
  intros HG HA HA2.
  assert (IH' : forall f, In f fs -> f_skip_de f = false -> f_flatten f = true ->
    complete items keys (strip_option (f_ty f)) <-> (forall k, needs_key items Deserialize (schema_must Deserialize) (strip_option (f_ty f)) k -> In k keys)).
  { intros f Hf HS HFl. apply complete_iff; [now apply HG|]. intros g. now apply (HA2 f). }
  split.
  - intros HC k (f & Z2 & Z3 & Z4). specialize (HC f Z2). pose proof Z3 as HS. cbn in HS. destruct (HA f Z2 HS) as [A1 A2].
    inversion Z4 as [d f0 HFl HM|d f0 k0 HFl HL HK]; subst.
    + cbn [key]. destruct HM as (M1 & M2 & M3). inversion HC; subst; try congruence; auto; try (match goal with H : missing_ok _ _ |- _ => apply A2 in H end); destruct M3; intuition congruence.
    + unfold loose in HL. rewrite A1, andb_true_r in HL. inversion HC; subst; try congruence; try (match goal with H : missing_ok _ _ |- _ => apply A2 in H; congruence end).
      rewrite <- (strip_forwarded items) in H0 by (rewrite <- A2; congruence). apply (proj1 (IH' f Z2 HS HFl)); auto.
  - intros HN f Hf. destruct (f_skip_de f) eqn:HS; [now apply CSkipped|].
    destruct (HA f Hf HS) as [A1 A2]. destruct (f_flatten f) eqn:HFl.
    + destruct (is_option (f_ty f)) eqn:HM; [apply CFlatNone; [exact HFl|now apply A2]|]. apply CFlat; [exact HFl|].
      rewrite <- (strip_forwarded items) by (rewrite <- A2; congruence). apply (IH' f Hf HS HFl). intros k Hk. apply HN. exists f. split; [exact Hf|]. split; [exact HS|].
      apply NeedsFlat; auto. unfold loose. now rewrite HM.
    + destruct (is_option (f_ty f)) eqn:HM; [apply CMissing; [exact HFl|now apply A2]|].
      destruct (f_default f) eqn:HDf; [apply CDefault; auto|].
      apply CGiven; [exact HFl|]. apply HN. exists f. split; [exact Hf|]. split; [exact HS|]. change (f_de f) with (key Deserialize f). apply NeedsName; [exact HFl|].
      split; [reflexivity|]. split; [exact HDf|]. left. congruence.
Qed.

(** ** Serialization *)
(** The value [o] of the fields within the JSON [j] of a value of the variant [v] *)
Definition fields_object {X} (tg : tagging) (v : variant X) (j : json) (o : map_t) : Prop :=
  if v_untagged v then j = JObj o else
  match tg with
  | Untagged | Internal _ => j = JObj o
  | External => j = JObj [(v_ser v, JObj o)]
  | Adjacent _ content => exists m, j = JObj m /\ mget content m = Some (JObj o)
  end.

Section Emits.
Variable items : nat -> item rval.
Variable text_ok : checks.
Notation parts := (SoundStruct.parts items text_ok).
Variables (n : nat) (cs : list string) (ts : list rty) (tg : tagging) (vs : list (variant rval)).
Hypothesis HD : d_data (it_decl (items n) cs ts) = DEnum tg vs.
Notation entries_json := (omap (fun kv : string * sval => match kv with (k, b) => option_map (pair k) (to_json b) end)).

Lemma mk_mget {B} (l : list (string * B)) k : mget k (mk l) <> None <-> In k (map fst l).
Proof.
  split; [apply mk_keys|]. unfold mk, mappend.
  assert (G : forall m : list (string * B), (In k (map fst l) \/ mget k m <> None) ->
    mget k (fold_left (fun m (kv : string * B) => mset (fst kv) (snd kv) m) l m) <> None).
  { induction l as [|[k' x] l IH]; intros m H; [destruct H as [[]|H]; exact H|]. cbn [fold_left fst snd]. apply IH.
    rewrite mget_mset. destruct (String.eqb_spec k k') as [->|HN]; [right; discriminate|].
    destruct H as [[H|H]|H]; [cbn in H; congruence|now left|now right]. }
  intros H. apply (G [] (or_introl H)).
Qed.

Definition variant_json (v : variant rval) (js : list (string * json)) : json :=
  if v_untagged v then JObj (mk js) else
  match tg with
  | Untagged => JObj (mk js)
  | Internal tag => JObj (mk ((tag, JStr (v_ser v)) :: js))
  | External => JObj [(v_ser v, JObj (mk js))]
  | Adjacent tag content => JObj (mk [(tag, JStr (v_ser v)); (content, JObj (mk js))])
  end.

Lemma enum_json i v fs xs : nth_error vs i = Some v -> v_skip_ser v = false -> v_style v = Struct fs ->
  value_json items text_ok true (TAdt n cs ts) (RVariant i xs) =
  match ser_fields text_ok true (own_names fs) fs (parts xs) with
  | Some es => option_map (variant_json v) (entries_json es)
  | None => None
  end.
Proof.
  intros HN HS ES. unfold value_json. cbn [ser]. unfold ser_decl. rewrite HD. cbn [ser_data]. rewrite HN. unfold ser_variant, variant_json. rewrite HS.
  unfold ser_untagged. rewrite ES. cbn [effective_style].
  change (map (fun x => (x, ser items text_ok true x)) xs) with (parts xs).
  destruct (ser_fields text_ok true (own_names fs) fs (parts xs)) as [es|]; cbn [option_map].
  2:{ destruct (v_untagged v), tg; reflexivity. }
  destruct (v_untagged v); [now rewrite to_json_struct_value|]. destruct tg as [| |tag|tag content].
  - destruct (existsb f_flatten fs) eqn:EF; cbn [to_json].
    + rewrite to_json_struct_value. destruct (entries_json es); reflexivity.
    + reflexivity.
  - now rewrite to_json_struct_value.
  - cbn [to_json]. cbn [omap to_json option_map]. destruct (entries_json es) eqn:EE; reflexivity.
  - cbn [to_json]. cbn [omap option_map]. rewrite to_json_struct_value. destruct (entries_json es); reflexivity.
Qed.

Lemma variant_object v js : exists o, fields_object tg v (variant_json v js) o /\
  (forall o', fields_object tg v (variant_json v js) o' -> o' = o) /\
  forall k, mget k o <> None <-> beside tg v k \/ In k (map fst js).
Proof.
  clear HD n. clear items. unfold fields_object, variant_json, beside. destruct (v_untagged v) eqn:EU; [|destruct tg as [| |tag|tag content]].
  - exists (mk js). split; [reflexivity|]. split; [congruence|]. intros k. rewrite mk_mget. intuition congruence.
  - exists (mk js). split; [reflexivity|]. split; [congruence|]. intros k. rewrite mk_mget. intuition congruence.
  - exists (mk js). split; [reflexivity|]. split; [congruence|]. intros k. rewrite mk_mget. intuition congruence.
  - exists (mk ((tag, JStr (v_ser v)) :: js)). split; [reflexivity|]. split; [congruence|]. intros k. rewrite mk_mget. cbn [map fst In]. intuition congruence.
  - exists (mk js). split; [eexists; split; [reflexivity|apply mk_last]|]. split.
    + intros o' (m & [= <-] & H). rewrite mk_last in H. congruence.
    + intros k. rewrite mk_mget. intuition congruence.
Qed.
End Emits.
