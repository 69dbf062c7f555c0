(** The shape of the schema of an enum: one subschema for each variant. *)
From Coq Require Import String Ascii List ZArith Bool Lia.
From Verif Require Import Json JsonFacts Utf8 Encoding EncodingProofs SchemaApi Transform Validate ValidateFacts ValidateKw Pointer
  PointerProofs Private Generate GenerateSpec GenerateProofs GenerateDoc SerValue Types TypesShape Serde Derivation Properties_Root
  SoundBase SoundStruct SoundTypes SoundAdt SoundEnum Sound.
Import ListNotations.
Open Scope string_scope.
Open Scope list_scope.

Lemma negb_if {A} b (x y : A) : (if negb b then x else y) = if b then y else x.
Proof. now destruct b. Qed.

Section Shape.
Context {X St : Type}.
Variable items : nat -> item X.
Variable S : settings St.
Variable seen : map_t -> Prop.
Variable Q : json -> Prop.
Notation prog := (prog rty St).
Notation any := (fun (_ : rty) (_ : json) => True).
Notation post_ := (post S seen any any Q).

Lemma shape_field (f : field X) k : (forall s, post_ (k s)) -> post_ (field_schema f k).
Proof. intros H. unfold field_schema. destruct (f_required f); cbn [post]; auto. Qed.
Lemma shape_tuple c (fs : list (field X)) : forall k, (forall s, post_ (k s)) -> post_ (tuple_fields c fs k).
Proof. induction fs as [|f fs IH]; intros k H; cbn [tuple_fields]; auto. destruct (included _ _ _); auto. apply shape_field. auto. Qed.
Lemma shape_struct def c (fs : list (field X)) : forall s k, (forall s, post_ (k s)) -> post_ (struct_fields def c fs s k).
Proof.
  induction fs as [|f fs IH]; intros s k H; cbn [struct_fields]; auto. destruct (negb _); auto.
  destruct (f_flatten f); [cbn [post]; auto|]. apply shape_field. auto.
Qed.
Lemma shape_style def deny c (s : style X) k : (forall s, post_ (k s)) -> post_ (style_prog def deny c s k).
Proof.
  intros H. destruct s; cbn [style_prog].
  - cbn [unit_prog post]. auto.
  - now apply shape_field.
  - now apply shape_tuple.
  - now apply shape_struct.
Qed.
Lemma shape_untagged deny c (v : variant X) b k : (forall s, post_ (k s)) -> post_ (untagged_variant deny c v b k).
Proof. intros H. now apply shape_style. Qed.
Lemma shape_external deny c (v : variant X) k : (forall s, post_ (k s)) -> post_ (external_variant deny c v k).
Proof.
  intros H. unfold external_variant. destruct (v_untagged v); [now apply shape_untagged|]. destruct (v_is_unit v); [apply H|].
  now apply shape_untagged.
Qed.
Lemma shape_adjacent deny c a b (v : variant X) k : (forall s, post_ (k s)) -> post_ (adjacent_variant deny c a b v k).
Proof.
  intros H. unfold adjacent_variant. destruct (v_untagged v); [now apply shape_untagged|]. destruct (v_is_unit v); [apply H|].
  now apply shape_untagged.
Qed.
Lemma shape_internal deny c tag (v : variant X) k : (forall s, post_ (k s)) -> post_ (internal_variant items deny c tag v k).
Proof.
  intros H. unfold internal_variant. destruct (v_untagged v); [now apply shape_untagged|].
  destruct (v_style v) as [|f|fs|fs].
  - cbn [unit_prog post]. auto.
  - destruct (f_required f); [now apply shape_field|]. cbn [post]. intros s _.
    destruct (for_internal_newtype _ _ s) as [s' []]; [apply H|]. cbn [post]. auto.
  - now apply shape_tuple.
  - now apply shape_struct.
Qed.

Definition counted c (vs : list (variant X)) : nat := List.length (filter (fun v => included (v_skip_de v) (v_skip_ser v) c) vs).

Lemma shape_variants c one (vs : list (variant X)) : (forall v k, (forall s, post_ (k s)) -> post_ (one v k)) ->
  forall k, (forall ss, List.length ss = counted c vs -> post_ (k ss)) -> post_ (variants c one vs k).
Proof.
  intros H. unfold counted. induction vs as [|v vs IH]; intros k HK; cbn [variants filter] in *; [apply HK; reflexivity|].
  destruct (included _ _ _); auto. apply H. intros s. apply IH. intros ss HL. apply HK. cbn [List.length]. now rewrite HL.
Qed.

(** The keyword and the number of the subschemas of an enum *)
Definition enum_keyword (tg : tagging) (vs : list (variant X)) : string :=
  match tg with Untagged => "anyOf" | _ => if existsb v_untagged vs then "anyOf" else "oneOf" end.
Definition enum_branches c (tg : tagging) (vs : list (variant X)) : nat :=
  match tg with
  | External => (if existsb plain_unit vs then 1 else 0) + counted c (filter (fun v => negb (plain_unit v)) vs)
  | _ => counted c vs
  end.
Definition lists (key : string) (n : nat) (s : json) : Prop :=
  exists m ss, s = JObj m /\ mget key m = Some (JArr ss) /\ List.length ss = n.

Lemma lists_obj key n ss : List.length ss = n -> lists key n (obj [(key, JArr ss)]).
Proof. intros H. exists (mk [(key, JArr ss)]), ss. refine (conj eq_refl (conj _ H)). cbn. now rewrite String.eqb_refl. Qed.

Lemma shape_enum deny c tg (vs : list (variant X)) k : vs <> [] -> (tg = External -> exists v, In v vs /\ plain_unit v = false) ->
  (forall s, lists (enum_keyword tg vs) (enum_branches c tg vs) s -> post_ (k s)) -> post_ (enum_prog items deny c tg vs k).
Proof.
  intros HV HE HK. unfold enum_prog. destruct vs as [|v0 vs0] eqn:EV; [now destruct HV|]. rewrite <- EV in *. clear EV v0 vs0 HV.
  destruct tg as [| |tag|tag content].
  - set (cpx := filter (fun v => negb (plain_unit v)) vs). destruct (HE eq_refl) as (w & Hw & HP).
    assert (Hc : In w cpx) by (apply filter_In; rewrite HP; auto).
    assert (HU : existsb v_untagged cpx = existsb v_untagged vs).
    { unfold cpx. clear. induction vs as [|v vs IH]; [reflexivity|]. cbn [filter existsb]. unfold plain_unit at 1.
      destruct (v_untagged v) eqn:EU; cbn [negb]; rewrite ?andb_false_r; cbn [negb existsb]; [now rewrite EU|].
      destruct (negb _); cbn [existsb]; now rewrite ?EU, IH. }
    destruct cpx as [|c0 cpx0] eqn:EC; [destruct Hc|]. rewrite <- EC in *.
    apply shape_variants; [intros; now apply shape_external|]. intros ss HL. apply HK. unfold variant_schemas. rewrite HU.
    cbn [enum_keyword enum_branches andb]. fold cpx.
    rewrite negb_if.
    apply lists_obj. assert (HF : existsb plain_unit vs = match filter plain_unit vs with [] => false | _ => true end).
    { clear. induction vs as [|v vs IH]; [reflexivity|]. cbn [existsb filter]. destruct (plain_unit v); [reflexivity|exact IH]. }
    rewrite HF. destruct (filter plain_unit vs); cbn [List.length]; rewrite HL; reflexivity.
  - apply shape_variants; [intros; now apply shape_untagged|]. intros ss HL. apply HK. now apply lists_obj.
  - apply shape_variants; [intros; now apply shape_internal|]. intros ss HL. apply HK. unfold variant_schemas. cbn [andb enum_keyword enum_branches].
    rewrite negb_if.
    now apply lists_obj.
  - apply shape_variants; [intros; now apply shape_adjacent|]. intros ss HL. apply HK. unfold variant_schemas. cbn [andb enum_keyword enum_branches].
    rewrite negb_if.
    now apply lists_obj.
Qed.
End Shape.

Lemma lists_meta key n l : forall s, (forall k x, In (k, x) l -> k <> key) -> lists key n s -> lists key n (insert_all l s).
Proof.
  induction l as [|[k x] l IH]; intros s HM HL; [exact HL|]. cbn [insert_all fold_left fst snd] in *.
  apply IH; [intros k' x' H'; apply (HM k' x'); now right|]. destruct HL as (m & ss & -> & H1 & H2). cbn [insert].
  eexists _, ss. refine (conj eq_refl (conj _ H2)). cbn [ensure_obj]. rewrite mget_mset.
  destruct (String.eqb_spec key k) as [->|]; [|exact H1]. exfalso. eapply (HM k x); [now left|reflexivity].
Qed.
