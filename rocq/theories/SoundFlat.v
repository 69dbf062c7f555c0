(** Structs with flattened enums: the schema built by [struct_prog] accepts the entries serde writes.
    It has alternatives, and says nothing of further properties. *)
From Coq Require Import String Ascii List ZArith Bool Lia.
From Verif Require Import Json JsonFacts Utf8 SchemaApi Transform Validate ValidateFacts ValidateKw Pointer Private PrivateProps
  PrivateNull PrivateTag ShapeFacts PrivateFlatten PrivateForFlatten PrepareEnum Generate SerValue SerValueProofs Types TypesShape
  Serde SerdeFacts Derivation Properties_Types SoundBase SoundStruct.
Import ListNotations.
Open Scope string_scope.
Open Scope list_scope.

Section FlatSound.
Variable items : nat -> item rval.
Variable text_ok : checks.
Notation ser_field := (Serde.ser_field text_ok).
Variable E : env.
Hypothesis format_null : forall f, e_fmt E f JNull = true.
Variable tok : string.
Hypothesis tok_fresh : ~ In tok used.
Notation ok_ := (valid D2020 E).
Notation ser_ := (ser items text_ok true).
Notation safe := (safe E tok).
Notation fits := (fits E).
Notation declares := (declares items).
Notation field_declares := (field_declares items).
Notation parts := (parts items text_ok).
Notation fields_json := (SoundStruct.fields_json items text_ok).
Notation no_maps := SoundStruct.no_maps.
Notation st := (fun n fs => SoundStruct.st items text_ok E tok (own_names fs) n fs).

(** ** Objects that have given entries under given names *)
Definition agrees (D : string -> Prop) (o es : map_t) : Prop := forall k, D k -> mget k o = mget k es.

Lemma fits_agree (D : string -> Prop) m es o : object_shape m -> mget "additionalProperties" m = None ->
  fits (props_of m) (required_of m) es -> (forall k, mget k (props_of m) <> None -> D k) ->
  NoDup (map fst o) -> agrees D o es -> ok_ (JObj m) (JObj o) = true.
Proof.
  intros HS HA [F1 F2 F3 F4] HN ND HO. rewrite valid_shape by exact HS. rewrite !andb_true_iff. repeat split.
  - cbn [props_ok]. apply forallb_forall. intros [k x] Hin. cbn [fst snd].
    destruct (mget k (props_of m)) as [s|] eqn:EP; [|reflexivity]. apply (F3 k s x EP). rewrite <- HO; [now apply NoDup_mget|]. apply HN. congruence.
  - cbn [required_ok]. apply forallb_forall. intros [| | |k| |] Hin; try reflexivity. unfold mhas.
    specialize (F4 k Hin). rewrite HO; [now destruct (mget k es)|]. apply HN, F2, mhas_In, F4.
  - unfold additional_ok. now rewrite HA.
Qed.

(** ** The schemas of flattened types *)
Record flat_like (n : nat) (t : rty) (opt : bool) (d : map_t) : Prop := {
  fl_keys : forall k, In k kws -> mget k d <> None -> In k ["type"; "properties"; "required"; "oneOf"; "anyOf"];
  fl_type : mget "type" d = None \/ mget "type" d = Some (JStr "object");
  fl_props : mget "properties" d = None \/ exists ps, mget "properties" d = Some (JObj ps);
  fl_req : mget "required" d = None \/ exists l, mget "required" d = Some (JArr l);
  fl_sorted : sorted_keys (map fst d) = true;
  fl_psorted : sorted_keys (map fst (props_of d)) = true;
  fl_tok : mget tok d = None;
  fl_names : forall k, mget k (props_of d) <> None -> declares t k;
  fl_sem : forall v sv fe es, rsize v <= n -> ser_ v t = Some sv -> flat_entries sv = Some fe -> omap entry_json fe = Some es ->
    NoDup (map fst es) /\ (forall k, In k (map fst es) -> declares t k)
    /\ forall o, NoDup (map fst o) -> agrees (declares t) o es -> ok_ (JObj d) (JObj o) = true;
  fl_none : opt = true -> forall o, NoDup (map fst o) -> agrees (declares t) o [] -> ok_ (JObj d) (JObj o) = true }.

Lemma flat_struct n i cs ts def fs deny d opt :
  d_data (it_decl (items i) cs ts) = DStruct def (Struct fs) -> no_maps fs -> st n fs deny d ->
  exists d', for_flatten (JObj d) opt = JObj d' /\ flat_like n (TAdt i cs ts) opt d'.
Proof.
  intros HD NM H. pose proof H as [B1 B2 B3 B4 B5 B6 B7 B8 B9 B10].
  destruct (for_flatten_get d opt B1 B3 B4) as (d' & HE & G & SG). exists d'. split; [exact HE|].
  assert (G1 : forall k, ~ In k ["additionalProperties"; "unevaluatedProperties"] -> k <> "required" -> mget k d' = mget k d).
  { intros k K1 K2. rewrite G. apply String.eqb_neq in K2. rewrite K2, andb_false_r.
    destruct (mem k _) eqn:EM; [apply mem_In in EM; contradiction|reflexivity]. }
  assert (GR : mget "required" d' = if opt then None else mget "required" d).
  { rewrite G. cbn [mem existsb String.eqb Ascii.eqb Bool.eqb orb andb]. now destruct opt. }
  assert (P1 : props_of d' = props_of d) by (unfold props_of; rewrite G1; [reflexivity|intros [HH|[HH|[]]]; discriminate|discriminate]).
  assert (R1 : required_of d' = if opt then [] else required_of d) by (unfold required_of; rewrite GR; now destruct opt).
  pose proof (st_closed _ _ _ _ _ _ _ _ _ H NM) as BM.
  assert (AD : mget "additionalProperties" d' = None).
  { rewrite G. cbn [mem existsb String.eqb Ascii.eqb Bool.eqb orb andb]. rewrite andb_false_r, BM. now destruct deny. }
  destruct B1 as (K1 & K2 & K3 & K4).
  assert (HS' : object_shape d').
  { split; [|split; [|split]].
    - intros k Hk HN. apply K1; [exact Hk|]. rewrite G in HN.
      destruct (opt && String.eqb k "required"); [|destruct (mget k d); [discriminate|]];
        destruct (mem k ["additionalProperties"; "unevaluatedProperties"]); cbn in HN; congruence.
    - rewrite G1; auto; [intros [HH|[HH|[]]]; discriminate|discriminate].
    - rewrite G1; auto; [intros [HH|[HH|[]]]; discriminate|discriminate].
    - rewrite GR. destruct opt; auto. }
  assert (NN : forall k, mget k (props_of d') <> None -> declares (TAdt i cs ts) k).
  { rewrite P1. intros k Hk. destruct (B9 k Hk) as (g & Hg & Hs & Hd). econstructor; eauto. }
  pose proof HS' as (K1' & K2' & K3' & K4').
  split; auto.
  - intros k Hk HN. destruct (K1' k Hk HN) as [<-|[<-|[<-|[<-|[]]]]]; first [congruence|cbn; tauto].
  - now rewrite P1.
  - destruct (mget tok d') eqn:ET; [|reflexivity]. exfalso. rewrite G1 in ET; [congruence| |].
    + intros [HH|[HH|[]]]; apply tok_fresh; rewrite <- HH; unfold used; apply in_or_app; left; in_names.
    + intros HH. apply tok_fresh. rewrite HH. in_names.
  - intros v sv fe es HL HSv HFe HJ. destruct (ser_adt _ _ _ _ _ _ _ _ _ HSv HD) as (l' & -> & Q3).
    assert (Q5 : Serde.ser_fields text_ok true (own_names fs) fs (parts l') = Some fe) by (eapply struct_sv; eauto).
    assert (X : fits (props_of d) (required_of d) es).
    { apply (st_fits_closed _ _ _ _ _ n fs deny d l' es H NM); [|unfold SoundStruct.fields_json; now rewrite Q5].
      intros y Hy. apply size_seq in Hy. lia. }
    assert (X' : fits (props_of d') (required_of d') es).
    { revert X. apply fits_lookup; [now rewrite P1|]. rewrite R1. destruct opt; [intros k []|auto]. }
    split; [apply X|]. split.
    + intros k Hk. apply NN, (ft_known _ _ _ _ X' k Hk).
    + intros o ND HO. eapply fits_agree; eauto.
  - intros -> o ND HO. apply (fits_agree (declares (TAdt i cs ts)) d' [] o); auto. rewrite R1.
    split; [constructor|intros k []|discriminate|intros k []].
Qed.

(** An enum: of the alternatives exactly one describes what a value's entries are part of. *)
Definition enum_alts (n : nat) (t : rty) (us : list string) (ss : list json) : Prop :=
  forall v sv fe es, rsize v <= n -> ser_ v t = Some sv -> flat_entries sv = Some fe -> omap entry_json fe = Some es ->
    NoDup (map fst es) /\ (forall k, In k (map fst es) -> declares t k)
    /\ forall o, NoDup (map fst o) -> agrees (declares t) o es -> List.length (filter (fun s => ok_ s (JObj o)) (all_variants us ss)) = 1.

Lemma kw1_oneOf l v : kw1 E "oneOf" (JArr l) v = (List.length (filter (fun s => ok_ s v) l) =? 1)%nat.
Proof.
  rewrite <- single_sem by (cbn; auto). change (JObj [("oneOf", JArr l)]) with (obj [("oneOf", JArr l)]). now rewrite valid_oneOf.
Qed.
Lemma kw1_anyOf l v : kw1 E "anyOf" (JArr l) v = existsb (fun s => ok_ s v) l.
Proof.
  rewrite <- single_sem by (cbn; auto). change (JObj [("anyOf", JArr l)]) with (obj [("anyOf", JArr l)]). now rewrite valid_anyOf.
Qed.

Lemma flat_enum_doc n t us ss m opt : enum_doc us ss m -> mget tok m = None -> enum_alts n t us ss ->
  exists d', for_flatten (JObj m) opt = JObj d' /\ flat_like n t opt d'.
Proof.
  intros HD HT HA. destruct (for_flatten_doc us ss m opt HD) as (d & HE & [D1 D2 D3 D4]). exists d. split; [exact HE|].
  assert (HN : forall k, In k kws \/ In k ctx -> k <> "oneOf" -> k <> "anyOf" -> mget k d = None).
  { intros k Hk N1 N2. destruct (mget k d) eqn:EK; [|reflexivity]. exfalso. assert (HK : k = if opt then "anyOf" else "oneOf") by (apply D2; congruence || auto).
    destruct opt; congruence. }
  assert (TY : mget "type" d = None) by (apply HN; try discriminate; left; in_names).
  assert (PR : mget "properties" d = None) by (apply HN; try discriminate; left; in_names).
  assert (RQ : mget "required" d = None) by (apply HN; try discriminate; left; in_names).
  assert (IN : independent d).
  { intros k Hk. apply HN; cbn in Hk; repeat (destruct Hk as [<-|Hk]; [first [left; in_names|discriminate]|]); destruct Hk. }
  assert (PO : props_of d = []) by (unfold props_of; now rewrite PR).
  assert (SEM : forall o, (if opt then True else List.length (filter (fun s => ok_ s (JObj o)) (all_variants us ss)) = 1) -> ok_ (JObj d) (JObj o) = true).
  { intros o HO. apply valid_alone; [exact IN|]. intros k x Hx. destruct (in_dec string_dec k kws) as [Hk|Hk]; [|now apply kw_other].
    assert (HK : k = if opt then "anyOf" else "oneOf") by (apply D2; [now left|congruence]). destruct opt; subst k.
    - destruct D4 as [y D4]. rewrite D4 in Hx. injection Hx as <-. rewrite kw1_anyOf. cbn [existsb].
      assert (HX : ok_ (JObj []) (JObj o) = true) by (apply valid_kw; discriminate). rewrite HX. now rewrite orb_true_r.
    - rewrite D4 in Hx. injection Hx as <-. rewrite kw1_oneOf. now apply Nat.eqb_eq. }
  split; auto.
  - intros k Hk HK. rewrite (D2 k (or_introl Hk) HK). destruct opt; cbn; tauto.
  - now rewrite PO.
  - rewrite D3; [exact HT| |]; intros HI; apply tok_fresh; unfold used; apply in_or_app; [now left|right; apply in_or_app; now left].
  - rewrite PO. intros k Hk. now elim Hk.
  - intros v sv fe es HL H1 H2 H3. destruct (HA v sv fe es HL H1 H2 H3) as (A1 & A2 & A3). split; [exact A1|]. split; [exact A2|].
    intros o ND HO. apply SEM. destruct opt; auto.
  - intros -> o ND HO. now apply SEM.
Qed.

(** ** The accumulated schema *)
Definition fs_declare (fs : list (field rval)) (k : string) : Prop := exists f, In f fs /\ f_skip_ser f = false /\ field_declares f k.

Record ste (rn : list string) (n : nat) (fs : list (field rval)) (m : map_t) : Prop := {
  se_keys : forall k, In k kws -> mget k m <> None -> In k ["type"; "properties"; "required"; "oneOf"; "anyOf"; "allOf"];
  se_type : mget "type" m = Some (JStr "object");
  se_props : mget "properties" m = None \/ exists ps, mget "properties" m = Some (JObj ps);
  se_req : mget "required" m = None \/ exists l, mget "required" m = Some (JArr l);
  se_all : list_or_absent "allOf" m;
  se_sorted : sorted_keys (map fst m) = true;
  se_psorted : sorted_keys (map fst (props_of m)) = true;
  se_tok : mget tok m = None;
  se_names : forall k, mget k (props_of m) <> None -> fs_declare fs k;
  se_sem : forall l es, (forall x, In x l -> rsize x < n) -> fields_json rn fs l = Some es ->
    NoDup (map fst es) /\ (forall k, In k (map fst es) -> fs_declare fs k)
    /\ forall o, NoDup (map fst o) -> agrees (fs_declare fs) o es -> ok_ (JObj m) (JObj o) = true }.

Lemma keys_independent m L : (forall k, In k kws -> mget k m <> None -> In k L) -> (forall k, In k dependent_keywords -> ~ In k L) -> independent m.
Proof.
  intros H HL k Hk. destruct (mget k m) eqn:EK; [|reflexivity]. exfalso. apply (HL k Hk), H; [|congruence].
  cbn in Hk. repeat (destruct Hk as [<-|Hk]; [in_names|]). destruct Hk.
Qed.
Lemma six_dependent k : In k dependent_keywords -> ~ In k ["type"; "properties"; "required"; "oneOf"; "anyOf"; "allOf"].
Proof. intros Hk HI. cbn in Hk, HI. repeat (destruct Hk as [<-|Hk]; [repeat (destruct HI as [HI|HI]; [discriminate|]); exact HI|]). exact Hk. Qed.
Lemma five_six k : In k ["type"; "properties"; "required"; "oneOf"; "anyOf"] -> In k ["type"; "properties"; "required"; "oneOf"; "anyOf"; "allOf"].
Proof. intros HI. cbn in HI |- *. tauto. Qed.
Lemma ste_independent rn n fs m : ste rn n fs m -> independent m.
Proof. intros H. eapply keys_independent; [apply (se_keys _ _ _ _ H)|apply six_dependent]. Qed.
Lemma flat_independent n t opt d : flat_like n t opt d -> independent d.
Proof.
  intros H. eapply keys_independent; [apply (fl_keys _ _ _ _ H)|]. intros k Hk HI. exact (six_dependent k Hk (five_six k HI)).
Qed.

Lemma ste_safe rn n fs m : ste rn n fs m -> safe (JObj m).
Proof.
  intros H. assert (HA : forall k, In k kws -> ~ In k ["type"; "properties"; "required"; "oneOf"; "anyOf"; "allOf"] -> mget k m = None).
  { intros k Hk Ho. destruct (mget k m) eqn:EK; [|reflexivity]. exfalso. apply Ho, (se_keys _ _ _ _ H); congruence. }
  assert (HT : has_type "null" (JObj m) = false) by (unfold has_type, s_get; now rewrite (se_type _ _ _ _ H)).
  assert (HC : mget "const" m = None) by (apply HA; [in_names|intros HO; cbn in HO; repeat (destruct HO as [HO|HO]; [discriminate|]); exact HO]).
  assert (HN : mget "not" m = None) by (apply HA; [in_names|intros HO; cbn in HO; repeat (destruct HO as [HO|HO]; [discriminate|]); exact HO]).
  split; auto; try discriminate.
  - congruence.
  - intros a [= ->]. pose proof (se_type _ _ _ _ H) as HTy. discriminate HTy.
  - intros m' [= <-] HI. rewrite HC. repeat split; try congruence. now apply other_accepts_null.
  - apply (se_tok _ _ _ _ H).
Qed.

Lemma ste_start rn n : ste rn n [] [("type", JStr "object")].
Proof.
  split; try reflexivity; try (left; reflexivity).
  - intros k _. cbn. destruct (String.eqb_spec k "type"); [auto|congruence].
  - cbn. destruct (String.eqb_spec tok "type") as [HT|]; [exfalso; apply tok_fresh; rewrite HT; in_names|reflexivity].
  - intros k Hk. now elim Hk.
  - intros l es _ HL. destruct l; [|discriminate]. injection HL as <-. split; [constructor|]. split; [intros k []|]. intros o _ _.
    apply valid_kw. intros k x Hx. cbn in Hx. destruct (String.eqb_spec k "type") as [->|]; [|discriminate]. injection Hx as <-. reflexivity.
Qed.

Lemma declare_app fs g k : fs_declare (fs ++ g) k <-> fs_declare fs k \/ fs_declare g k.
Proof.
  unfold fs_declare. split.
  - intros (f & Hf & H). apply in_app_or in Hf as [Hf|Hf]; [left|right]; eauto.
  - intros [(f & Hf & H)|(f & Hf & H)]; exists f; (split; [apply in_or_app; auto|exact H]).
Qed.
Lemma declare_one f k : f_skip_ser f = false -> field_declares f k -> fs_declare [f] k.
Proof. intros HS H. exists f. split; [now left|]. now split. Qed.
Lemma declare_one_inv f k : fs_declare [f] k -> field_declares f k.
Proof. intros (g & [<-|[]] & _ & H). exact H. Qed.

(** The entries of both parts *)
Lemma entries_app fs f (e1 e2 : map_t) :
  NoDup (map fst e1) -> (forall k, In k (map fst e1) -> fs_declare fs k) -> NoDup (map fst e2) -> (forall k, In k (map fst e2) -> fs_declare [f] k) ->
  (forall g, In g fs -> f_skip_ser g = false -> forall k, field_declares g k -> ~ field_declares f k) ->
  NoDup (map fst (e1 ++ e2)) /\ (forall k, In k (map fst (e1 ++ e2)) -> fs_declare (fs ++ [f]) k)
  /\ forall o, agrees (fs_declare (fs ++ [f])) o (e1 ++ e2) -> agrees (fs_declare fs) o e1 /\ agrees (fs_declare [f]) o e2.
Proof.
  intros N1 D1 N2 D2 HD.
  assert (DJ : forall k, fs_declare fs k -> fs_declare [f] k -> False).
  { intros k (g & Hg & Hs & H) H'. apply declare_one_inv in H'. exact (HD g Hg Hs k H H'). }
  assert (A1 : forall k, fs_declare [f] k -> mget k e1 = None).
  { intros k Hk. destruct (mget k e1) eqn:EK; [|reflexivity]. exfalso. apply (DJ k); [|exact Hk]. apply D1, mhas_In. congruence. }
  assert (A2 : forall k, fs_declare fs k -> mget k e2 = None).
  { intros k Hk. destruct (mget k e2) eqn:EK; [|reflexivity]. exfalso. apply (DJ k); [exact Hk|]. apply D2, mhas_In. congruence. }
  split; [|split].
  - rewrite map_app. apply NoDup_app_intro; auto. intros k H1 H2. exact (DJ k (D1 k H1) (D2 k H2)).
  - intros k. rewrite map_app, in_app_iff, declare_app. intuition.
  - intros o HO. split; intros k Hk; rewrite (HO k) by (apply declare_app; auto); rewrite mget_app.
    + rewrite (A2 k Hk). now destruct (mget k e1).
    + now rewrite (A1 k Hk).
Qed.

Lemma ste_skip rn n fs m f : f_skip_ser f = true -> ste rn n fs m -> ste rn n (fs ++ [f]) m.
Proof.
  intros HS [A1 A2 A3 A4 A5 A6 A7 A8 A9 A10]. split; auto.
  - intros k Hk. apply declare_app. left. auto.
  - intros l es HL HJ. apply fields_json_app in HJ as (l1 & l2 & e1 & e2 & -> & H1 & H2 & ->).
    apply fields_json_one in H2 as (x & -> & [[_ ->]|[H2 _]]); [|rewrite HS in H2; discriminate].
    rewrite app_nil_r. destruct (A10 l1 e1) as (B1 & B2 & B3); auto; [intros y Hy; apply HL, in_or_app; now left|].
    split; [exact B1|]. split; [intros k Hk; apply declare_app; left; auto|]. intros o ND HO. apply B3; [exact ND|].
    intros k Hk. apply HO, declare_app. now left.
Qed.

(** One more property *)
Lemma ste_field rn n fs m f opt sub :
  ste rn n fs m -> f_skip_ser f = false -> f_flatten f = false ->
  (forall g, In g fs -> f_skip_ser g = false -> forall k, field_declares g k -> ~ field_declares f k) ->
  (f_skip_if f <> None -> opt = true) ->
  (forall x v j, rsize x < n -> ser_field true f (x, ser_ x) = Some v -> json_of v = Some j -> ok_ sub j = true) ->
  exists m', insert_object_property (JObj m) (f_ser f) opt sub = JObj m' /\ ste rn n (fs ++ [f]) m'.
Proof.
  intros H HS HF HD HO HV. pose proof H as [A1 A2 A3 A4 A5 A6 A7 A8 A9 A10].
  destruct (insert_property_get m (f_ser f) opt sub A3 A4) as (m' & HE & G). exists m'. split; [exact HE|].
  assert (P : props_of m' = mset (f_ser f) sub (props_of m)) by (unfold props_of at 1; now rewrite G).
  assert (K1 : forall k, In k kws -> mget k m' <> None -> In k ["type"; "properties"; "required"; "oneOf"; "anyOf"; "allOf"]).
  { intros k Hk HN. rewrite G in HN. destruct (String.eqb_spec k "properties") as [->|]; [cbn; tauto|].
    destruct (String.eqb_spec k "required") as [->|]; [cbn; tauto|]. auto. }
  assert (DF : field_declares f (f_ser f)) by now constructor.
  split; auto.
  - rewrite G. exact A2.
  - rewrite G. cbn [String.eqb Ascii.eqb Bool.eqb]. eauto.
  - rewrite G. cbn [String.eqb Ascii.eqb Bool.eqb andb]. destruct (negb opt); eauto.
  - unfold list_or_absent. rewrite G. exact A5.
  - eapply insert_property_sorted; eauto.
  - rewrite P. now apply sorted_mset.
  - rewrite G. destruct (String.eqb_spec tok "properties") as [HT|]; [exfalso; apply tok_fresh; rewrite HT; in_names|].
    destruct (String.eqb_spec tok "required") as [HT|]; [exfalso; apply tok_fresh; rewrite HT; in_names|]. exact A8.
  - intros k. rewrite P, mget_mset, declare_app. destruct (String.eqb_spec k (f_ser f)) as [->|]; [right; now apply declare_one|left; auto].
  - intros l es HL HJ. apply fields_json_app in HJ as (l1 & l2 & e1 & e2 & -> & H1 & H2 & ->).
    destruct (A10 l1 e1) as (B1 & B2 & B3); auto; [intros y Hy; apply HL, in_or_app; now left|].
    assert (X : NoDup (map fst e2) /\ (forall k, In k (map fst e2) -> fs_declare [f] k)
        /\ (forall x, mget (f_ser f) e2 = Some x -> ok_ sub x = true) /\ (opt = false -> mget (f_ser f) e2 <> None)).
    { apply fields_json_one in H2 as (x & -> & H2). assert (HX : rsize x < n) by (apply HL, in_or_app; right; now left).
      destruct H2 as [[H2 ->]|(H2 & v & Hv & [[H3 _]|[_ (j & Hj & ->)]])].
      - rewrite HS in H2. cbn [orb] in H2. unfold skip_now in H2.
        assert (HO' : opt = true) by (apply HO; intros HN; rewrite HN in H2; discriminate).
        rewrite HO'. split; [constructor|]. split; [intros k []|]. split; [discriminate|discriminate].
      - congruence.
      - split; [repeat constructor; intros []|]. split; [intros k [<-|[]]; now apply declare_one|]. cbn. rewrite String.eqb_refl.
        split; [|congruence]. intros y [= <-]. eapply HV; eauto. }
    destruct X as (X1 & X2 & X3 & X4).
    destruct (entries_app fs f e1 e2 B1 B2 X1 X2 HD) as (Y1 & Y2 & Y3). split; [exact Y1|]. split; [exact Y2|]. intros o ND HOo.
    destruct (Y3 o HOo) as [O1 O2]. specialize (B3 o ND O1).
    assert (IM : independent m') by (eapply keys_independent; [exact K1|apply six_dependent]).
    apply valid_alone; [exact IM|]. intros k x Hx.
    pose proof (proj1 (valid_alone E m (JObj o) (ste_independent _ _ _ _ H)) B3) as BK. rewrite G in Hx.
    assert (OF : mget (f_ser f) o = mget (f_ser f) e2) by now apply O2, declare_one.
    destruct (String.eqb_spec k "properties") as [->|N1].
    { injection Hx as <-. unfold kw1, kw. cbn [String.eqb Ascii.eqb Bool.eqb existsb assertion_names orb]. rewrite chk_props_ok. cbn [props_ok].
      apply forallb_forall. intros [c y] Hin. cbn [fst snd]. rewrite mget_mset. apply NoDup_mget in Hin; [|exact ND].
      destruct (String.eqb_spec c (f_ser f)) as [->|]; [apply X3; congruence|]. destruct (mget c (props_of m)) as [s|] eqn:EP; [|reflexivity].
      unfold props_of in EP. destruct A3 as [A3|[ps A3]]; rewrite A3 in EP; [discriminate|]. specialize (BK "properties" (JObj ps) A3).
      unfold kw1, kw in BK. cbn [String.eqb Ascii.eqb Bool.eqb existsb assertion_names orb] in BK. rewrite chk_props_ok in BK. cbn [props_ok] in BK.
      rewrite forallb_forall in BK. apply mget_In in Hin. specialize (BK _ Hin). cbn [fst snd] in BK. now rewrite EP in BK. }
    destruct (String.eqb_spec k "required") as [->|N2]; [|cbn [andb] in Hx; now apply BK].
    destruct opt; [cbn [negb andb] in Hx; now apply BK|]. cbn [negb andb] in Hx. injection Hx as <-.
    rewrite kw1_app by (cbn; tauto). apply andb_true_iff. split.
    + unfold required_of. destruct A4 as [A4|[q A4]]; rewrite A4; [reflexivity|]. now apply BK.
    + change (required_ok [JStr (f_ser f)] (JObj o) = true). cbn. unfold mhas. rewrite OF. specialize (X4 eq_refl). now destruct (mget (f_ser f) e2).
Qed.

(** One more flattened field *)
Lemma ste_flat rn n fs m f d :
  ste rn n fs m -> f_skip_ser f = false -> f_flatten f = true ->
  (forall g, In g fs -> f_skip_ser g = false -> forall k, field_declares g k -> ~ field_declares f k) ->
  (f_skip_if f <> None -> is_option (f_ty f) = true /\ f_required f = false) ->
  flat_like (pred n) (strip_option (f_ty f)) (is_option (f_ty f) && negb (f_required f)) d ->
  exists m', flatten (JObj m) (JObj d) = JObj m' /\ ste rn n (fs ++ [f]) m'.
Proof.
  intros H HS HF HD HO HL. pose proof H as [A1 A2 A3 A4 A5 A6 A7 A8 A9 A10]. pose proof HL as [L1 L2 L3 L4 L5 L6 L7 L8 L9 L10].
  set (opt := is_option (f_ty f) && negb (f_required f)) in *.
  pose proof (ste_independent _ _ _ _ H) as I1. pose proof (flat_independent _ _ _ _ HL) as I2. pose proof (sorted_NoDup _ L5) as ND2.
  assert (FD : forall k, declares (strip_option (f_ty f)) k -> fs_declare [f] k) by (intros k Hk; apply declare_one; [exact HS|now constructor]).
  assert (FD' : forall k, fs_declare [f] k -> declares (strip_option (f_ty f)) k).
  { intros k Hk. apply declare_one_inv in Hk. inversion Hk; subst; [congruence|assumption]. }
  assert (NA : mget "allOf" d = None).
  { destruct (mget "allOf" d) eqn:EK; [|reflexivity]. exfalso. assert (HI : In "allOf" ["type"; "properties"; "required"; "oneOf"; "anyOf"]) by (apply L1; [in_names|congruence]).
    cbn in HI. repeat (destruct HI as [HI|HI]; [discriminate|]). exact HI. }
  assert (DJ : forall k, mget k (props_of m) <> None -> mget k (props_of d) <> None -> False).
  { intros k H1 H2. destruct (A9 k H1) as (g & Hg & Hs & Hk). apply (HD g Hg Hs k Hk). constructor; auto. }
  assert (MG : mergeable m d).
  { split; auto.
    - intros k x1 x2 H1 H2. unfold mergeable_at.
      destruct (in_dec string_dec k kws) as [Hk|Hk].
      2:{ destruct (mem k ["required"; "allOf"]) eqn:M1; [apply mem_In in M1; exfalso; apply Hk; destruct M1 as [<-|[<-|[]]]; in_names|].
          destruct (mem k ["properties"; "patternProperties"]) eqn:M2; [apply mem_In in M2; exfalso; apply Hk; destruct M2 as [<-|[<-|[]]]; in_names|].
          destruct (mem k ["oneOf"; "anyOf"]); [exact I|now right]. }
      assert (HI : In k ["type"; "properties"; "required"; "oneOf"; "anyOf"]) by (apply L1; congruence).
      destruct HI as [<-|[<-|[<-|[<-|[<-|[]]]]]]; cbn [mem existsb String.eqb Ascii.eqb Bool.eqb orb]; auto.
      + left. destruct L2 as [L2|L2]; congruence.
      + destruct A3 as [A3|[p1 A3]]; [congruence|]. destruct L3 as [L3|[p2 L3]]; [congruence|]. rewrite H1 in A3. rewrite H2 in L3.
        injection A3 as ->. injection L3 as ->. unfold props_of in A7, L6, DJ. rewrite H1 in A7, DJ. rewrite H2 in L6, DJ.
        exists p1, p2. repeat split; auto. intros c C1 C2. apply (DJ c); now apply mhas_In.
      + destruct A4 as [A4|[q A4]]; [congruence|]. destruct L4 as [L4|[q' L4]]; [congruence|]. split; [exists q|exists q']; congruence.
    - left. exact NA. }
  assert (FE : exists r, flatten (JObj m) (JObj d) = JObj r /\ r = fold_left (fun m kv => flatten_property m (fst kv) (snd kv)) d m).
  { unfold flatten. cbn [ensure_obj ensure_object]. unfold normalise. rewrite !I1, !I2 by (cbn; tauto). eexists. split; reflexivity. }
  destruct FE as (r & HE & HR). exists r. split; [exact HE|].
  assert (G : forall c, c <> "allOf" -> ~ In c ["oneOf"; "anyOf"] -> mget c r = match mget c d with None => mget c m | Some x => mget c (flatten_plain m c x) end).
  { intros c C1 C2. rewrite HR. now apply fold_get. }
  assert (KR : forall k, In k kws -> mget k r <> None -> In k ["type"; "properties"; "required"; "oneOf"; "anyOf"; "allOf"]).
  { intros k Hk HN. destruct (in_dec string_dec k ["allOf"; "oneOf"; "anyOf"]) as [HI|HI]; [clear -HI; cbn in HI |- *; tauto|].
    rewrite G in HN by (clear -HI; cbn in HI |- *; intuition congruence). destruct (mget k d) as [x|] eqn:ED.
    - assert (HI' : In k ["type"; "properties"; "required"; "oneOf"; "anyOf"]) by (apply L1; congruence). now apply five_six.
    - auto. }
  assert (PR : mget "properties" r = None \/ exists ps, mget "properties" r = Some (JObj ps)).
  { rewrite G by (try discriminate; cbn; intuition discriminate). destruct L3 as [L3|[p2 L3]]; rewrite L3; [exact A3|]. unfold flatten_plain.
    destruct A3 as [A3|[p1 A3]]; rewrite A3; cbn [mem existsb String.eqb Ascii.eqb Bool.eqb orb]; rewrite mget_mset, String.eqb_refl; eauto. }
  assert (PP : forall k, mget k (props_of r) = match mget k (props_of d) with Some s => Some s | None => mget k (props_of m) end).
  { intros k. unfold props_of in *. rewrite G by (try discriminate; cbn; intuition discriminate). destruct L3 as [L3|[p2 L3]]; rewrite L3 in *; [reflexivity|]. unfold flatten_plain.
    destruct A3 as [A3|[p1 A3]]; rewrite A3; cbn [mem existsb String.eqb Ascii.eqb Bool.eqb orb]; rewrite mget_mset, String.eqb_refl; cbn [mget].
    - now destruct (mget k p2).
    - apply mget_mappend_NoDup. now apply sorted_NoDup. }
  split; auto.
  - rewrite G by (try discriminate; cbn; intuition discriminate). destruct (mget "type" d); [|exact A2].
    unfold flatten_plain. rewrite A2. cbn [mem existsb String.eqb Ascii.eqb Bool.eqb orb]. exact A2.
  - rewrite G by (try discriminate; cbn; intuition discriminate). destruct L4 as [L4|[q2 L4]]; rewrite L4; [exact A4|]. unfold flatten_plain.
    destruct A4 as [A4|[q1 A4]]; rewrite A4; cbn [mem existsb String.eqb Ascii.eqb Bool.eqb orb]; rewrite mget_mset, String.eqb_refl; eauto.
  - rewrite HR. assert (HK : forall k x, In (k, x) d -> k = "allOf" -> exists l, x = JArr l).
    { intros k x Hin ->. apply NoDup_mget in Hin; [congruence|exact ND2]. }
    clear -A5 HK. revert m A5. induction d as [|[k x] d IH]; intros m A5; [exact A5|]. cbn [fold_left fst snd]. apply IH.
    + intros k' x' Hin. apply HK. now right.
    + apply property_all; [exact A5|]. intros HA. eapply HK; [now left|exact HA].
  - rewrite HR. now apply fold_flatten_sorted.
  - unfold props_of. rewrite G by (try discriminate; cbn; intuition discriminate). unfold props_of in A7, L6. destruct L3 as [L3|[p2 L3]]; rewrite L3 in *; [exact A7|].
    unfold flatten_plain. destruct A3 as [A3|[p1 A3]]; rewrite A3 in *; cbn [mem existsb String.eqb Ascii.eqb Bool.eqb orb]; rewrite mget_mset, String.eqb_refl; [exact L6|].
    clear -A7. revert p1 A7. unfold mappend. induction p2 as [|[k x] p2 IH]; intros a Ha; [exact Ha|]. cbn [fold_left]. apply IH. now apply sorted_mset.
  - rewrite G, L7; [exact A8| |].
    + intros HT. apply tok_fresh. rewrite HT. in_names.
    + intros [HT|[HT|[]]]; apply tok_fresh; rewrite <- HT; in_names.
  - intros k. rewrite PP, declare_app. destruct (mget k (props_of d)) eqn:EP; [|left; auto]. intros _. right. apply FD, L8. congruence.
  - intros l es HLs HJ. apply fields_json_app in HJ as (l1 & l2 & e1 & e2 & -> & H1 & H2 & ->).
    destruct (A10 l1 e1) as (B1 & B2 & B3); auto; [intros y Hy; apply HLs, in_or_app; now left|].
    assert (X : NoDup (map fst e2) /\ (forall k, In k (map fst e2) -> fs_declare [f] k)
        /\ forall o, NoDup (map fst o) -> agrees (fs_declare [f]) o e2 -> ok_ (JObj d) (JObj o) = true).
    { assert (EMPTY : opt = true -> NoDup (map fst ([] : map_t)) /\ (forall k, In k (map fst ([] : map_t)) -> fs_declare [f] k)
        /\ forall o, NoDup (map fst o) -> agrees (fs_declare [f]) o [] -> ok_ (JObj d) (JObj o) = true).
      { intros HOp. split; [constructor|]. split; [intros k []|]. intros o ND HA. apply L10; auto. intros k Hk. now apply HA, FD. }
      apply fields_json_one in H2 as (x & -> & H2). assert (HX : rsize x < n) by (apply HLs, in_or_app; right; now left).
      destruct H2 as [[H2 ->]|(H2 & v & Hv & [[_ (fe & Hfe & _ & Hje)]|[H3 _]])]; [| |congruence].
      - rewrite HS in H2. cbn [orb] in H2. unfold skip_now in H2. apply EMPTY.
        destruct HO as [O1 O2]; [intros HN; rewrite HN in H2; discriminate|]. unfold opt. now rewrite O1, O2.
      - rewrite flat_field in Hv by assumption. cbn [andb fst snd] in Hv.
        destruct (present (f_ty f) x) eqn:EPr.
        + rewrite andb_false_r in Hv.
          destruct (present_strip items text_ok (f_ty f) x v EPr Hv) as (v' & sv' & Q1 & Q2 & _ & Q4).
          destruct (L9 v' sv' fe e2) as (Y1 & Y2 & Y3); auto; [lia|congruence|].
          split; [exact Y1|]. split; [intros k Hk; apply FD; auto|]. intros o ND HA. apply Y3; [exact ND|]. intros k Hk. now apply HA, FD.
        + destruct (f_required f) eqn:ERq; [discriminate|].
          cbn [andb negb] in Hv. destruct (absent_flat items text_ok (f_ty f) x v EPr Hv) as [J1 J2].
          rewrite J2 in Hfe. injection Hfe as <-. injection Hje as <-. apply EMPTY. unfold opt. now rewrite J1. }
    destruct X as (X1 & X2 & X3).
    destruct (entries_app fs f e1 e2 B1 B2 X1 X2 HD) as (Y1 & Y2 & Y3). split; [exact Y1|]. split; [exact Y2|]. intros o ND HOo.
    destruct (Y3 o HOo) as [O1 O2]. rewrite <- HE, flatten_conj by assumption. rewrite (B3 o ND O1), (X3 o ND O2). reflexivity.
Qed.

Lemma ste_valid rn n fs m l es : ste rn n fs m -> (forall x, In x l -> rsize x < n) -> fields_json rn fs l = Some es -> ok_ (JObj m) (JObj (mk es)) = true.
Proof.
  intros H HL HJ. destruct (se_sem _ _ _ _ H l es HL HJ) as (S1 & S2 & S3). apply S3.
  - apply sorted_NoDup, sorted_mk.
  - intros k _. now apply mget_mk_NoDup.
Qed.
End FlatSound.
