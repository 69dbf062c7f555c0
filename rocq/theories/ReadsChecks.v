(** Validation attributes that narrow the type they are on: the schema with them accepts what the
    schema accepts and meets them. *)
From Coq Require Import String Ascii List ZArith Bool Lia.
From Verif Require Import Json JsonFacts SchemaApi Validate ValidateFacts ValidateKw Private PrivateNull ValidationAttrs ValidationProofs
  ValidationField SerValue Types TypesShape ShapeFacts Serde Reads.
Import ListNotations.
Open Scope string_scope.
Open Scope list_scope.

Ltac no_kw' H := exfalso; cbn in H; intuition discriminate.
Ltac no_kw := intros HH; cbn in HH; intuition discriminate.

(** ** The schemas of these types *)
Definition plain_map (m : map_t) : Prop :=
  typed m /\ contains_immediate_subschema m = false /\ mget "enum" m = None /\ mget "const" m = None.
Definition bare (ks : list string) (m : map_t) : Prop := forall k, In k validation_keywords -> ~ In k ks -> mget k m = None.
Fixpoint shape (t : rty) (s : json) : Prop :=
  match t with
  | TStr | TNumber => exists m, s = JObj m /\ plain_map m /\ bare [] m
  | TF32 | TF64 => exists m, s = JObj m /\ plain_map m /\ bare ["format"] m
  | TInt i => exists m, s = JObj m /\ plain_map m /\ bare ["format"; "minimum"; "maximum"] m
                        /\ mget "minimum" m = option_map jz (lower i) /\ mget "maximum" m = option_map jz (upper i)
  | TSeq t | TSet t => exists m it, s = JObj m /\ plain_map m /\ bare [] m /\ mget "prefixItems" m = None
                                    /\ mget "items" m = Some it /\ shape t it
  | TOption t | TFwd t => shape t s
  | _ => True
  end.

Lemma null_map m : plain_map m -> exists m', allow_null (JObj m) = JObj m' /\ plain_map m' /\ forall k, k <> "type" -> mget k m' = mget k m.
Proof.
  intros (HT & HC & HE & HK).
  assert (HA : mget "anyOf" m = None).
  { unfold contains_immediate_subschema, immediate_keys in HC. cbn [existsb] in HC. rewrite !orb_false_iff in HC.
    destruct HC as (_ & _ & HC & _). unfold mhas in HC. destruct (mget "anyOf" m); [discriminate|reflexivity]. }
  assert (HG : forall k, k <> "type" -> mget k (type_step m) = mget k m).
  { intros k Hk. rewrite type_step_get. destruct (String.eqb_spec k "type"); [contradiction|reflexivity]. }
  exists (type_step m). rewrite allow_null_plain, HK, HE; [|exact HC|now rewrite HA, andb_false_r]. split; [reflexivity|]. split; [|exact HG].
  split; [|split; [|split]]; rewrite ?HG; try assumption; try discriminate.
  - unfold typed. rewrite type_step_get, String.eqb_refl. destruct HT as [[t ->]|[l ->]]; cbn [null_type].
    + destruct (String.eqb t "null"); eauto.
    + destruct (existsb _ l); eauto.
  - unfold contains_immediate_subschema in *. rewrite <- HC. unfold immediate_keys. cbn [existsb]. unfold mhas. now rewrite !HG by discriminate.
Qed.

Lemma bare_ext ks m m' : (forall k, k <> "type" -> mget k m' = mget k m) -> bare ks m -> bare ks m'.
Proof. intros H HB k Hk HN. rewrite H by (intros ->; cbn in Hk; intuition discriminate). now apply HB. Qed.

Lemma shape_null t s : shape t s -> shape t (allow_null s).
Proof.
  induction t as [| | | | | | | |i| | |t IH|t IH|t IH| | | | | | | | | | | | | | |t IH| |]; cbn [shape]; auto.
  1: intros (m & -> & HP & HB). 2: intros (m & -> & HP & HB). 3: intros (m & -> & HP & HB). 4: intros (m & -> & HP & HB).
  5: intros (m & -> & HP & HB & H1 & H2).
  6: intros (m & it & -> & HP & HB & H1 & H2 & H3). 7: intros (m & it & -> & HP & HB & H1 & H2 & H3).
  all: destruct (null_map m HP) as (m' & -> & HP' & HG); exists m'.
  1-4: split; [reflexivity|split; [exact HP'|eapply bare_ext; eauto]].
  - split; [reflexivity|]. split; [exact HP'|]. split; [eapply bare_ext; eauto|]. rewrite !HG by discriminate. auto.
  - exists it. rewrite !HG by discriminate. repeat split; try apply HP'; auto. eapply bare_ext; eauto.
  - exists it. rewrite !HG by discriminate. repeat split; try apply HP'; auto. eapply bare_ext; eauto.
Qed.

Lemma plain_ext m m' : (forall k, In k kws \/ In k ctx -> mget k m' = mget k m) -> plain_map m -> plain_map m'.
Proof.
  intros HG (HT & HC & HE & HK). unfold plain_map, typed, contains_immediate_subschema, immediate_keys, mhas in *. cbn [existsb] in *.
  rewrite !HG by (left; cbn; auto 60). auto.
Qed.
Lemma bare_kws ks m m' : (forall k, In k kws \/ In k ctx -> mget k m' = mget k m) -> bare ks m -> bare ks m'.
Proof.
  intros HG HB k Hk HN. rewrite HG; [now apply HB|]. left. cbn in Hk. repeat (destruct Hk as [<-|Hk]; [cbn; auto 60|]). destruct Hk.
Qed.
Lemma shape_ext t m m' : (forall k, In k kws \/ In k ctx -> mget k m' = mget k m) -> shape t (JObj m) -> shape t (JObj m').
Proof.
  intros HG.
  induction t as [| | | | | | | |i| | |t IH|t IH|t IH| | | | | | | | | | | | | | |t IH| |]; cbn [shape]; auto.
  1-4: intros (m0 & [= <-] & HP & HB); exists m'; split; [reflexivity|]; split; [eapply plain_ext; eauto|eapply bare_kws; eauto].
  - intros (m0 & [= <-] & HP & HB & H1 & H2). exists m'. split; [reflexivity|]. split; [eapply plain_ext; eauto|]. split; [eapply bare_kws; eauto|].
    rewrite !HG by (left; cbn; auto 60). auto.
  - intros (m0 & it & [= <-] & HP & HB & H1 & H2 & H3). exists m', it. split; [reflexivity|]. split; [eapply plain_ext; eauto|]. split; [eapply bare_kws; eauto|].
    rewrite !HG by (left; cbn; auto 60). auto.
  - intros (m0 & it & [= <-] & HP & HB & H1 & H2 & H3). exists m', it. split; [reflexivity|]. split; [eapply plain_ext; eauto|]. split; [eapply bare_kws; eauto|].
    rewrite !HG by (left; cbn; auto 60). auto.
Qed.
Lemma shape_obj t a s : narrows t a -> shape t s -> exists m, s = JObj m.
Proof. induction t as [| | | | | | | |i| | |t IH|t IH|t IH| | | | | | | | | | | | | | |t IH| |]; cbn [narrows shape]; try contradiction; auto; intros _; [intros (m & -> & _)..|intros (m & it & -> & _)|intros (m & it & -> & _)]; eauto. Qed.

Lemma shape_ref {X} (items : nat -> item X) t s : type_inline items t = false -> shape t s.
Proof. induction t; cbn [type_inline shape]; intros H; try discriminate; auto. Qed.

Ltac bare_kw := let k := fresh "k" in let H := fresh "H" in let N := fresh "N" in
  intros k H N; cbn in H; repeat (destruct H as [<-|H]; [first [reflexivity|exfalso; apply N; in_names]|]); destruct H.
Ltac plain := split; [left; eexists; reflexivity|]; split; [reflexivity|]; split; reflexivity.
Lemma shape_str : shape TStr (obj [("type", JStr "string")]).
Proof. eexists. split; [reflexivity|]. split; [plain|bare_kw]. Qed.
Lemma shape_number : shape TNumber (obj [("type", JStr "number")]).
Proof. eexists. split; [reflexivity|]. split; [plain|bare_kw]. Qed.
Lemma shape_f32 f : shape TF32 (obj [("type", JStr "number"); ("format", JStr f)]).
Proof. eexists. split; [reflexivity|]. split; [plain|bare_kw]. Qed.
Lemma shape_f64 f : shape TF64 (obj [("type", JStr "number"); ("format", JStr f)]).
Proof. eexists. split; [reflexivity|]. split; [plain|bare_kw]. Qed.
Lemma shape_int i : shape (TInt i) (int_schema i).
Proof. unfold int_schema, obj. destruct i; (eexists; split; [reflexivity|]; split; [plain|]; split; [bare_kw|]; split; reflexivity). Qed.
Lemma shape_seq t s : shape t s -> shape (TSeq t) (obj [("type", JStr "array"); ("items", s)]).
Proof. intros H. eexists. exists s. split; [reflexivity|]. split; [plain|]. split; [bare_kw|]. split; [reflexivity|]. split; [reflexivity|exact H]. Qed.
Lemma shape_set t s : shape t s -> shape (TSet t) (set_schema s).
Proof. intros H. eexists. exists s. split; [reflexivity|]. split; [plain|]. split; [bare_kw|]. split; [reflexivity|]. split; [reflexivity|exact H]. Qed.

(** ** Attributes *)
Section Sem.
Variable E : env.
Notation ok_ := (valid D2020 E).

(** The keywords they set say no less than the ones they replace. *)
Definition keeps (a : vattrs) (m : map_t) : Prop := forall k x y v, In (k, x) (entries a) -> mget k m = Some y ->
  assertion E k x v = true -> assertion E k y v = true.

Lemma outer_run a m : exists m', add_outer a (JObj m) = JObj m'
  /\ forall k, mget k m' = mget k m \/ exists x, In (k, x) (entries a) /\ mget k m' = Some x.
Proof.
  apply (outer_ind (fun s => exists m', s = JObj m' /\ forall k, mget k m' = mget k m \/ exists x, In (k, x) (entries a) /\ mget k m' = Some x)).
  - exists m. auto.
  - intros s k x Hin (m' & -> & HG). exists (mset k x m'). split; [reflexivity|]. intros k'. rewrite mget_mset.
    destruct (String.eqb_spec k' k) as [->|]; [right; eauto|apply HG].
Qed.

Lemma outer_keeps a m m' v : keeps a m -> (forall k, mget k m' = mget k m \/ exists x, In (k, x) (entries a) /\ mget k m' = Some x) ->
  ok_ (JObj m') v = true -> ok_ (JObj m) v = true.
Proof.
  intros HK HG HV. rewrite valid_kw in *. intros k y Hy. destruct (HG k) as [HE|(x & Hx & HE)].
  - rewrite <- HE in Hy. rewrite (kw_ext E m m'); [now apply HV|]. intros c Hc. destruct (HG c) as [->|(x & Hx & _)]; [reflexivity|].
    exfalso. apply entries_key in Hx. now apply (validation_ctx c).
  - specialize (HV _ _ HE). rewrite kw_validation in * by (eapply entries_key; eauto). eapply HK; eauto.
Qed.

Lemma inner_keeps m it it' v : mget "prefixItems" m = None -> mget "items" m = Some it -> (forall x, ok_ it' x = true -> ok_ it x = true) ->
  ok_ (JObj (mupd "items" (fun _ => it') m)) v = true -> ok_ (JObj m) v = true.
Proof.
  intros HP HI HK HV. set (m2 := mupd _ _ m) in *. assert (HG : forall k, k <> "items" -> mget k m2 = mget k m).
  { intros k Hk. unfold m2. rewrite mget_mupd. destruct (String.eqb_spec k "items"); congruence. }
  rewrite valid_kw in *. intros k y Hy.
  assert (HC : forall c, In c ctx -> mget c m = mget c m2) by (intros c Hc; symmetry; apply HG; intros ->; cbn in Hc; intuition discriminate).
  destruct (String.eqb_spec k "items") as [->|Hk].
  - assert (Hy' : y = it) by congruence. subst y. assert (H2 : mget "items" m2 = Some it') by (unfold m2; rewrite mget_mupd, HI; reflexivity).
    specialize (HV _ _ H2).
    assert (HW : forall n x, mget "prefixItems" n = None -> kw E n "items" x v = match v with JArr l => forallb (ok_ x) l | _ => true end).
    { intros n x Hn. unfold kw. cbn [String.eqb Ascii.eqb Bool.eqb existsb assertion_names orb]. rewrite Hn. reflexivity. }
    rewrite HW in * by (rewrite <- ?HC by in_names; exact HP). destruct v; auto. rewrite forallb_forall in *. auto.
  - rewrite (kw_ext E m m2 k y v HC). apply HV. now rewrite HG.
Qed.

Lemma mutators_keep a m v : keeps a m ->
  match va_inner a with
  | Some i => mget "prefixItems" m = None /\ exists it, mget "items" m = Some it /\ forall x, ok_ (add_mutators i it) x = true -> ok_ it x = true
  | None => True end ->
  ok_ (add_mutators a (JObj m)) v = true -> ok_ (JObj m) v = true.
Proof.
  intros HK HI HV. rewrite add_mutators_unfold in HV. destruct (outer_run a m) as (m' & HE & HG). rewrite HE in HV.
  apply (outer_keeps a m m' v HK HG). destruct (va_inner a) as [i|]; [|exact HV]. destruct HI as (HP & it & Hit & HM).
  destruct (inner_cases (JObj m') (add_mutators i)) as [HC|(m2 & it2 & [= <-] & H2 & _ & HC)]; rewrite HC in HV; [exact HV|].
  assert (HN : forall k, ~ In k validation_keywords -> mget k m' = mget k m).
  { intros k Hk. destruct (HG k) as [H|(x & Hx & _)]; [exact H|]. exfalso. apply Hk. eapply entries_key; eauto. }
  rewrite HN in H2 by no_kw. assert (it2 = it) by congruence. subst it2.
  eapply inner_keeps; [|rewrite HN; [exact Hit|no_kw]|exact HM|exact HV]. rewrite HN by no_kw. exact HP.
Qed.

(** *** What the types ask for *)
Lemma range_trans_low a b n : (a <= b)%Z -> num_leb (NInt b) n = true -> num_leb (NInt a) n = true.
Proof.
  intros HL. unfold num_leb, num_cmp. destruct n as [z|m e]; cbn [num_me].
  - change (0 - Z.min 0 0)%Z with 0%Z. rewrite !Z.mul_1_r. destruct (Z.compare_spec b z), (Z.compare_spec a z); try discriminate; try reflexivity; lia.
  - assert (HP : (0 < 2 ^ (0 - Z.min 0 e))%Z) by (apply Z.pow_pos_nonneg; lia). set (p := (2 ^ (0 - Z.min 0 e))%Z) in *. set (q := (m * _)%Z).
    assert (a * p <= b * p)%Z by (apply Z.mul_le_mono_nonneg_r; lia).
    destruct (Z.compare_spec (b * p) q), (Z.compare_spec (a * p) q); try discriminate; try reflexivity; lia.
Qed.
Lemma range_trans_high a b n : (b <= a)%Z -> num_leb n (NInt b) = true -> num_leb n (NInt a) = true.
Proof.
  intros HL. unfold num_leb, num_cmp. destruct n as [z|m e]; cbn [num_me].
  - change (0 - Z.min 0 0)%Z with 0%Z. rewrite !Z.mul_1_r. destruct (Z.compare_spec z b), (Z.compare_spec z a); try discriminate; try reflexivity; lia.
  - assert (HP : (0 < 2 ^ (0 - Z.min e 0))%Z) by (apply Z.pow_pos_nonneg; lia). set (p := (2 ^ (0 - Z.min e 0))%Z) in *. set (q := (m * _)%Z).
    assert (b * p <= a * p)%Z by (apply Z.mul_le_mono_nonneg_r; lia).
    destruct (Z.compare_spec q (b * p)), (Z.compare_spec q (a * p)); try discriminate; try reflexivity; lia.
Qed.

Lemma bare_keeps ks a m : bare ks m -> (forall k x, In (k, x) (entries a) -> ~ In k ks) -> keeps a m.
Proof. intros HB HN k x y v Hin Hy. exfalso. rewrite (HB k) in Hy; [discriminate| |]; [eapply entries_key|eapply HN]; eauto. Qed.

Lemma no_format a k x : va_format a = None -> In (k, x) (entries a) -> k <> "format".
Proof.
  intros HF Hin ->. apply entries_in in Hin as [(l & _ & [(H & _)|(H & _)])|[(l & _ & [(H & _)|(H & _)])|[(H & _)|(_ & f & _ & H)]]];
    try (cbn in H; intuition discriminate). congruence.
Qed.

Lemma lower_range i lo z : lower i = Some lo -> in_range i z = true -> (lo <= z)%Z.
Proof.
  unfold in_range. intros HL H. apply andb_prop in H as [H _]. apply Z.leb_le in H. destruct i; try discriminate; injection HL as <-; exact H.
Qed.
Lemma upper_range i hi z : upper i = Some hi -> in_range i z = true -> (z <= hi)%Z.
Proof.
  unfold in_range. intros HL H. apply andb_prop in H as [_ H]. apply Z.leb_le in H. destruct i; try discriminate; injection HL as <-; exact H.
Qed.

Lemma int_keeps i a m : va_format a = None ->
  match va_range a with
  | Some l => within i (orelse (lr_min l) (lr_equal l)) /\ within i (orelse (lr_max l) (lr_equal l))
  | None => True end ->
  bare ["format"; "minimum"; "maximum"] m -> mget "minimum" m = option_map jz (lower i) -> mget "maximum" m = option_map jz (upper i) -> keeps a m.
Proof.
  intros HF HR HB H1 H2 k x y v Hin Hy HA. pose proof (no_format a k x HF Hin) as HNF. pose proof (entries_key _ _ _ Hin) as Hk.
  destruct (in_dec string_dec k ["format"; "minimum"; "maximum"]) as [HI|HI]; [|rewrite (HB k Hk HI) in Hy; discriminate].
  apply entries_in in Hin as [(l & _ & [(H & _)|(H & _)])|[(l & Hl & [(-> & H)|(-> & H)])|[(-> & _)|(-> & _)]]];
    [exfalso; cbn in H; destruct H as [<-|[<-|[]]]; no_kw' HI..| | |no_kw' HI|contradiction].
  - rewrite Hl in HR. destruct HR as [HR _]. rewrite H in HR. rewrite H1 in Hy. destruct (lower i) as [lo|] eqn:EL; [|discriminate]. injection Hy as <-.
    destruct x as [| |[z|]| | |]; try contradiction. cbn [within] in HR. destruct v as [| |n| | |]; try reflexivity.
    change (num_leb (NInt z) n = true) in HA. change (num_leb (NInt lo) n = true). eapply range_trans_low; [|exact HA]. eapply lower_range; eauto.
  - rewrite Hl in HR. destruct HR as [_ HR]. rewrite H in HR. rewrite H2 in Hy. destruct (upper i) as [hi|] eqn:EL; [|discriminate]. injection Hy as <-.
    destruct x as [| |[z|]| | |]; try contradiction. cbn [within] in HR. destruct v as [| |n| | |]; try reflexivity.
    change (num_leb n (NInt z) = true) in HA. change (num_leb n (NInt hi) = true). eapply range_trans_high; [|exact HA]. eapply upper_range; eauto.
Qed.

Lemma narrow_types t : forall a s, narrows t a -> shape t s -> says_types a s.
Proof.
  assert (HL : forall a m, plain_map m -> one_pattern a -> va_inner a = None -> says_types a (JObj m)).
  { intros a m (HT & _) H1 H2. destruct a as [a1 a2 a3 a4 a5 a6 a7 a8]. cbn [va_inner] in H2. subst. cbn [says_types va_inner]. auto. }
  induction t as [| | | | | | | |i| | |t IH|t IH|t IH| | | | | | | | | | | | | | |t IH| |]; cbn [shape narrows]; intros a s HN HS; try contradiction; auto.
  1,2,3,4: destruct HS as (m & -> & HP & _); apply HL; tauto.
  - destruct HS as (m & -> & HP & _). apply HL; tauto.
  - destruct HN as (H1 & H2), HS as (m & it & -> & (HT & _) & _ & HP & HI & HS). destruct a as [a1 a2 a3 a4 a5 a6 a7 [i|]]; cbn [says_types va_inner] in *; eauto 8.
  - destruct HN as (H1 & H2), HS as (m & it & -> & (HT & _) & _ & HP & HI & HS). destruct a as [a1 a2 a3 a4 a5 a6 a7 [i|]]; cbn [says_types va_inner] in *; eauto 8.
Qed.

Lemma narrow_keeps t : forall a s v, narrows t a -> shape t s -> ok_ (add_mutators a s) v = true -> ok_ s v = true.
Proof.
  assert (HL : forall ks a m v, va_inner a = None -> bare ks m -> (forall k x, In (k, x) (entries a) -> ~ In k ks) ->
     ok_ (add_mutators a (JObj m)) v = true -> ok_ (JObj m) v = true).
  { intros ks a m v HI HB HN. apply mutators_keep; [eapply bare_keeps; eauto|now rewrite HI]. }
  assert (HF : forall a k x, va_format a = None -> In (k, x) (entries a) -> ~ In k ["format"]).
  { intros a k x H1 H2 [H3|[]]. now apply (no_format a k x H1 H2). }
  induction t as [| | | | | | | |i| | |t IH|t IH|t IH| | | | | | | | | | | | | | |t IH| |]; cbn [shape narrows]; intros a s v HN HS; try contradiction; eauto.
  - destruct HS as (m & -> & HP & HB). apply (HL []); tauto.
  - destruct HS as (m & -> & HP & HB). apply (HL ["format"]); try tauto. intros k x. apply HF. tauto.
  - destruct HS as (m & -> & HP & HB). apply (HL ["format"]); try tauto. intros k x. apply HF. tauto.
  - destruct HS as (m & -> & HP & HB). apply (HL []); tauto.
  - destruct HS as (m & -> & HP & HB & H1 & H2), HN as (H3 & H4 & H5 & H6). apply mutators_keep; [|now rewrite H4]. eapply int_keeps; eauto.
  - destruct HN as (H1 & H2), HS as (m & it & -> & _ & HB & HP & HI & HS). apply mutators_keep; [eapply bare_keeps; eauto|].
    destruct (va_inner a) as [i|]; [|exact I]. split; [exact HP|]. exists it. split; [exact HI|]. intros x. now apply IH.
  - destruct HN as (H1 & H2), HS as (m & it & -> & _ & HB & HP & HI & HS). apply mutators_keep; [eapply bare_keeps; eauto|].
    destruct (va_inner a) as [i|]; [|exact I]. split; [exact HP|]. exists it. split; [exact HI|]. intros x. now apply IH.
Qed.
End Sem.
