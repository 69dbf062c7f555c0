(** Property C41: a value validates against the schema inferred from it. *)
From Coq Require Import String Ascii List ZArith NArith Bool Lia.
From Verif Require Import Json JsonFacts Utf8 SchemaApi Validate ValidateFacts ValidateKw Private
  PrivateNull PrivateProps Transform Generate SerValue ShapeFacts SerValueProofs Properties_Private.
Import ListNotations.
Open Scope string_scope.

(** Formats are annotations, or at least "uint8" admits the numbers 0 to 255. *)
Definition bytes_format (E : env) : Prop :=
  forall z, (0 <= z <= 255)%Z -> e_fmt E "uint8" (JNum (NInt z)) = true.

(** "ordinary" (SerValueProofs.v): finite floats, map keys whose JSON text needs no escaping. The
    two restrictions are necessary: see the refutations below. *)
Theorem C41_accepts_own_value_partial : forall E meta v doc j,
  bytes_format E -> ordinary v = true ->
  root_for_value meta v = Some doc -> to_json v = Some j ->
  valid D2020 E doc j = true.
Proof.
  intros E meta v doc j HF HO HR HJ. unfold root_for_value in HR.
  destruct (ser_schema true v) as [s|] eqn:ES; [|discriminate]. cbn [option_map] in HR. injection HR as <-.
  pose proof (is_schema_ser v _ _ ES) as HS.
  assert (HV : valid D2020 E (JObj (ensure_obj s)) j = true).
  { rewrite valid_ensure by exact HS. eapply ser_valid; eassumption. }
  assert (HN : forall k, In k ["examples"; "$schema"] -> ~ In k kws /\ ~ In k ctx).
  { intros k [<-|[<-|[]]]; split; intros HH; cbn in HH; repeat (destruct HH as [HH|HH]; [discriminate|]); exact HH. }
  rewrite HJ. assert (HX : valid D2020 E (JObj (mset "examples" (JArr [j]) (ensure_obj s))) j = true).
  { rewrite valid_annotation; [exact HV| |]; apply HN; cbn; auto. }
  destruct meta as [x|]; [|exact HX]. rewrite valid_annotation; [exact HX| |]; apply HN; cbn; auto.
Qed.
Print Assumptions C41_accepts_own_value_partial.

(** The document carries the value as its example, and the meta schema. *)
Theorem C41_example : forall meta v doc j,
  root_for_value meta v = Some doc -> to_json v = Some j ->
  exists m, doc = JObj m /\ mget "examples" m = Some (JArr [j])
  /\ (forall x, meta = Some x -> mget "$schema" m = Some (JStr x)).
Proof.
  intros meta v doc j HR HJ. unfold root_for_value in HR.
  destruct (ser_schema true v) as [s|] eqn:ES; [|discriminate]. cbn [option_map] in HR. injection HR as <-.
  rewrite HJ. eexists. split; [reflexivity|]. destruct meta as [x|].
  - rewrite !mget_mset. cbn [String.eqb Ascii.eqb Bool.eqb]. split; [reflexivity|]. intros ? [= <-]. reflexivity.
  - rewrite !mget_mset. cbn [String.eqb Ascii.eqb Bool.eqb]. split; [reflexivity|]. discriminate.
Qed.
Print Assumptions C41_example.

(** The inferred schemas are not vacuous. *)
(** Sequences: an array is accepted iff each element is accepted by the schema of some element of
    the example (an empty example says nothing about the elements). *)
Theorem C41_sequences : forall E l b s j,
  ser_schema b (VSeq l) = Some s ->
  (valid D2020 E s j = true <->
   exists js, j = JArr js
   /\ (l = [] \/ forall y, In y js ->
        exists x sx, In x l /\ ser_schema false x = Some sx /\ valid D2020 E sx y = true)).
Proof.
  intros E l b s j H. cbn [ser_schema] in H. apply option_map_some in H as (items & Hs & ->).
  fold (seq_fold (ser_schema false)) in Hs. rewrite seq_end_valid.
  destruct j as [| | | |js|]; try (split; [discriminate|intros (? & ? & _); discriminate]).
  destruct (seq_fold_spec _ _ _ _ (or_intror (@in_nil _ _) : good_items []) Hs) as [[-> HT]|(HN & _ & HX & HS)].
  - destruct HT as [HT|(x & Hx & Hf)]; [discriminate|]. split.
    + intros _. exists js. split; [reflexivity|]. right. intros y _. exists x, (JBool true). auto.
    + intros _. apply forallb_forall. reflexivity.
  - rewrite forallb_forall. split.
    + intros H. exists js. split; [reflexivity|]. destruct l as [|x0 l]; [now left|]. right. intros y Hy.
      specialize (H y Hy). destruct items as [|s0 items].
      * destruct (HX x0 (or_introl eq_refl)) as (? & _ & []).
      * apply existsb_exists in H as (sy & Hsy & HV). destruct (HS sy Hsy) as [[]|(x & Hx & Hf)]. eauto 6.
    + intros (js' & [= <-] & H) y Hy. destruct items as [|s0 items]; [reflexivity|].
      destruct H as [->|H]; [cbn in Hs; discriminate|]. destruct (H y Hy) as (x & sx & Hx & Hf & HV).
      apply existsb_exists. exists sx. split; [|exact HV]. destruct (HX x Hx) as (sx' & Hf' & Hin). congruence.
Qed.
Print Assumptions C41_sequences.

(** Tuples and tuple structs: exactly as many elements, each accepted by its schema. *)
Theorem C41_tuples : forall E l b s j name ss,
  (ser_schema b (VTuple l) = Some s \/ ser_schema b (VTupleStruct name l) = Some s) ->
  Forall2 (fun x sx => ser_schema false x = Some sx) l ss ->
  (valid D2020 E s j = true <-> exists js, j = JArr js /\ Forall2 (fun sx y => valid D2020 E sx y = true) ss js).
Proof.
  intros E l b s j name ss H HF. apply omap_F2 in HF. cbn [ser_schema] in H. rewrite HF in H.
  assert (HE : exists t, s = tuple_end t ss) by (destruct H as [[= <-]|[= <-]]; eauto). clear H.
  destruct HE as (t & ->). rewrite tuple_end_valid.
  destruct j as [| | | |js|]; try (split; [discriminate|intros (? & ? & _); discriminate]).
  rewrite andb_true_iff, Nat.eqb_eq. split.
  - intros [HL HV]. exists js. split; [reflexivity|]. clear HF. revert js HL HV.
    induction ss as [|s ss IH]; intros [|y js] HL HV; try discriminate; [constructor|].
    cbn in HV. apply andb_true_iff in HV as [H1 H2]. constructor; [exact H1|]. apply IH; [now injection HL|exact H2].
  - intros (js' & [= <-] & H). clear HF. induction H as [|s y ss js Hy H IH]; [auto|]. destruct IH as [HL HV]. cbn.
    rewrite Hy. auto.
Qed.
Print Assumptions C41_tuples.

(** Structs: an object is accepted iff each of its properties named like a field is accepted by the
    schema of the field's value. *)
Theorem C41_structs : forall E name l b s j,
  NoDup (map fst l) -> ser_schema b (VStruct name l) = Some s ->
  (valid D2020 E s j = true <->
   exists o, j = JObj o /\ forall k y, In (k, y) o -> forall x, In (k, x) l ->
     exists sx, ser_schema false x = Some sx /\ valid D2020 E sx y = true).
Proof.
  intros E name l b s j ND H. cbn [ser_schema] in H. apply option_map_some in H as (ps & Hs & ->).
  rewrite map_end_valid. destruct j as [| | | | |o]; try (split; [discriminate|intros (? & ? & _); discriminate]).
  apply omap_F2 in Hs.
  assert (HP : map fst ps = map fst l
    /\ (forall k x, In (k, x) l -> exists sx, ser_schema false x = Some sx /\ In (k, sx) ps)
    /\ (forall k sx, In (k, sx) ps -> exists x, In (k, x) l /\ ser_schema false x = Some sx)).
  { clear -Hs. induction Hs as [|[k x] q l ps Hq Hs (IH1 & IH2 & IH3)]; [repeat split; intros; contradiction|].
    apply option_map_some in Hq as (sx & Hx & ->). cbn. rewrite IH1. split; [reflexivity|]. split.
    - intros k' x' [[= <- <-]|Hin]; [eauto|]. destruct (IH2 _ _ Hin) as (sx' & ? & ?). eauto.
    - intros k' sx' [[= <- <-]|Hin]; [eauto|]. destruct (IH3 _ _ Hin) as (x' & ? & ?). eauto. }
  destruct HP as (HK & HP1 & HP2). assert (NDp : NoDup (map fst ps)) by now rewrite HK.
  unfold props_ok. rewrite forallb_forall. split.
  - intros H. exists o. split; [reflexivity|]. intros k y Hy x Hx. destruct (HP1 _ _ Hx) as (sx & Hf & Hin).
    exists sx. split; [exact Hf|]. specialize (H _ Hy). cbn [fst snd] in H.
    rewrite mget_mk_NoDup, (NoDup_mget k sx) in H by assumption. exact H.
  - intros (o' & [= <-] & H) [k y] Hy. cbn [fst snd]. rewrite mget_mk_NoDup by exact NDp.
    destruct (mget k ps) as [sx|] eqn:Eg; [|reflexivity]. apply mget_In in Eg. destruct (HP2 _ _ Eg) as (x & Hx & Hf).
    destruct (H _ _ Hy _ Hx) as (sx' & Hf' & HV). congruence.
Qed.
Print Assumptions C41_structs.

(** Standard maps: if the values all have the same schema, exactly the objects whose values are
    accepted by it; otherwise every object. *)
Theorem C41_maps : forall E l b s j,
  ser_schema b (VCollectMap l) = Some s ->
  (exists k x, In (k, x) l) ->
  forall sx, (forall k x, In (k, x) l -> ser_schema false x = Some sx) ->
  (valid D2020 E s j = true <-> exists o, j = JObj o /\ forall k y, In (k, y) o -> valid D2020 E sx y = true).
Proof.
  intros E l b s j H (k0 & x0 & H0) sx HA. cbn [ser_schema] in H. apply option_map_some in H as (acc & Hs & ->).
  fold (collect_fold (ser_schema false)) in Hs. unfold collect_end. rewrite valid_object_additional.
  assert (HE : acc = Some sx).
  { assert (HG : forall l acc acc', collect_fold (ser_schema false) l acc = Some acc' ->
       (forall k x, In (k, x) l -> ser_schema false x = Some sx) -> acc = None \/ acc = Some sx ->
       (l = [] /\ acc' = acc) \/ acc' = Some sx).
    { clear. induction l as [|[k x] l IH]; intros acc acc' H HA Hacc.
      - left. cbn in H. injection H as <-. auto.
      - right. unfold collect_fold in H. cbn [ofold] in H. fold (collect_fold (ser_schema false)) in H.
        rewrite (HA k x) in H by now left. cbn [option_map] in H.
        assert (HN : exists acc1, (if collect_closed acc then Some acc else Some (collect_step acc sx)) = Some acc1
                       /\ acc1 = Some sx).
        { destruct Hacc as [->| ->].
          - cbn. eauto.
          - destruct (collect_closed (Some sx)); [eauto|]. cbn [collect_step]. rewrite json_eqb_refl. eauto. }
        destruct HN as (acc1 & HN & ->). rewrite HN in H.
        destruct (IH _ _ H ltac:(intros; eapply HA; right; eassumption) (or_intror eq_refl)) as [[_ ->]|?]; auto. }
    destruct (HG _ _ _ Hs HA (or_introl eq_refl)) as [[-> _]|HE]; [destruct H0|exact HE]. }
  subst acc. destruct j as [| | | | |o]; try (split; [discriminate|intros (? & ? & _); discriminate]).
  rewrite forallb_forall. split.
  - intros H. exists o. split; [reflexivity|]. intros k y Hy. exact (H _ Hy).
  - intros (o' & [= <-] & H) [k y] Hy. exact (H k y Hy).
Qed.
Print Assumptions C41_maps.

(** Optional values: null is accepted too. *)
Theorem C41_option_monotone : forall E v b s,
  ser_schema b (VSome v) = Some s ->
  exists sv, ser_schema false v = Some sv /\ forall j, valid D2020 E sv j = true -> valid D2020 E s j = true.
Proof.
  intros E v b s H. cbn [ser_schema] in H. apply option_map_some in H as (sv & Hs & ->). exists sv.
  split; [exact Hs|]. intros j. apply allow_null_mono.
Qed.
Print Assumptions C41_option_monotone.

(** The schema of a named struct carries its name as title at the root only. *)
Theorem C41_title : forall name l s,
  name <> "" -> ser_schema true (VStruct name l) = Some s -> s_get "title" s = Some (JStr name).
Proof.
  intros name l s HN H. cbn [ser_schema] in H. apply option_map_some in H as (ps & _ & ->).
  unfold map_end, titled. destruct (String.eqb_spec name ""); [contradiction|]. cbn [s_get].
  apply mget_mset_eq.
Qed.
Print Assumptions C41_title.

(** ** Where the property fails *)
(** A NaN is serialized as null; the inferred schema says "number". *)
Theorem C41_nan_refuted : exists v doc j,
  root_for_value None v = Some doc /\ to_json v = Some j /\ valid D2020 no_env doc j = false.
Proof. exists (VSeq [VFloat None]). do 2 eexists. repeat split; vm_compute; reflexivity. Qed.
Print Assumptions C41_nan_refuted.

(** The property name for a key is the key's escaped JSON text: a newline key is described as the
    two characters backslash n, which are another entry's key. *)
Definition newline : string := String (ascii_of_nat 10) "".
Theorem C41_escaped_key_refuted : exists v doc j,
  root_for_value None v = Some doc /\ to_json v = Some j /\ valid D2020 no_env doc j = false.
Proof.
  exists (VMap [(VStr newline, VInt 1); (VStr "\n", VStr "x")]). do 2 eexists.
  repeat split; vm_compute; reflexivity.
Qed.
Print Assumptions C41_escaped_key_refuted.

(** ** Examples *)
Definition example_value : sval :=
  VStruct "Point"
    [("x", VInt 3); ("tags", VSeq [VStr "a"; VSome (VInt 1); VStr "b"]);
     ("pair", VTuple [VBool true; VFloat (Some (3, -1)%Z)]);
     ("m", VMap [(VStr "k", VInt 1); (VInt (-7), VNone)]);
     ("c", VCollectMap [(VStr "p", VInt 1); (VStr "q", VInt 2)])].
Example C41_accepts_nontrivial :
  ordinary example_value = true
  /\ (exists doc j, root_for_value (Some "meta") example_value = Some doc /\ to_json example_value = Some j
      /\ valid D2020 no_env doc j = true
      /\ valid D2020 no_env doc (obj [("x", JStr "3")]) = false
      /\ valid D2020 no_env doc (obj [("pair", JArr [JBool true])]) = false).
Proof. split; [reflexivity|]. do 2 eexists. repeat split; vm_compute; reflexivity. Qed.
