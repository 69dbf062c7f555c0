(** The schemas of the modelled types accept all JSON that serde reads, given that the schemas of
    their parts do. *)
From Coq Require Import String Ascii List ZArith Bool Lia.
From Verif Require Import Json JsonFacts Utf8 SchemaApi Transform TransformPost Validate ValidateFacts ValidateKw Pointer Private PrivateProps
  PrivateNull PrivateTag ShapeFacts PrivateFlatten PrivateForFlatten Generate SerValue SerValueProofs ValidationAttrs ValidationProofs
  ValidationField Types TypesShape Serde SerdeFacts Derivation Properties_Types SoundBase SoundStruct SoundTypes SoundStd SoundAdt
  SoundEnum TypesSchema Reads ReadsChecks ReadsStep Accepts.
Import ListNotations.
Open Scope string_scope.
Open Scope list_scope.

(** ** JSON values *)
Lemma input_elem sets l x : input sets (JArr l) -> In x l -> input sets x.
Proof.
  intros [H1 H2] HI. cbn [wf no_repeats] in *. rewrite forallb_forall in H1. split; [auto|]. intros HS. specialize (H2 HS).
  apply andb_prop in H2 as [_ H2]. rewrite forallb_forall in H2. auto.
Qed.
Lemma input_value sets o k x : input sets (JObj o) -> In (k, x) o -> input sets x.
Proof.
  intros [H1 H2] HI. cbn [wf no_repeats] in *. apply andb_prop in H1 as [_ H1]. rewrite forallb_forall in H1. specialize (H1 _ HI).
  split; [exact H1|]. intros HS. specialize (H2 HS). rewrite forallb_forall in H2. exact (H2 _ HI).
Qed.
Lemma input_part sets o o' : (forall x, In x o' -> In x o) -> sorted_keys (map fst o') = true -> input sets (JObj o) -> input sets (JObj o').
Proof.
  intros HI HS [H1 H2]. cbn [wf no_repeats] in *. apply andb_prop in H1 as [_ H1]. rewrite forallb_forall in H1. split; cbn [wf no_repeats].
  - rewrite HS. cbn [andb]. apply forallb_forall. auto.
  - intros HX. specialize (H2 HX). rewrite forallb_forall in H2. apply forallb_forall. auto.
Qed.
Lemma input_sorted sets o : input sets (JObj o) -> sorted_keys (map fst o) = true.
Proof. intros [H _]. cbn [wf] in H. now apply andb_prop in H. Qed.
Lemma input_mdel sets k o : input sets (JObj o) -> input sets (JObj (mdel k o)).
Proof. intros H. eapply input_part; [|apply sorted_mdel; eapply input_sorted; eauto|exact H]. intros x Hx. eapply in_mdel; eauto. Qed.
Lemma input_filter sets p o : input sets (JObj o) -> input sets (JObj (filter p o)).
Proof. intros H. eapply input_part; [|apply sorted_filter; eapply input_sorted; eauto|exact H]. intros x Hx. now apply filter_In in Hx. Qed.
Lemma input_leaf sets j : (forall l, j <> JArr l) -> (forall o, j <> JObj o) -> input sets j.
Proof. intros H1 H2. destruct j as [| | | |l|o]; try (split; reflexivity); [now elim (H1 l)|now elim (H2 o)]. Qed.

Section Step.
Context {St : Type}.
Variable items : nat -> item rval.
Variable text_ok : checks.
Variable E : env.
Hypothesis HFm : formats text_ok E.
Hypothesis HDp : decimal_patterns E.
Hypothesis HNum : forall n, e_fmt E "float" (JNum n) = true /\ e_fmt E "double" (JNum n) = true.
Variable tok : string.
Hypothesis tok_fresh : ~ In tok used.
Variable sets : bool.
Notation ok_ := (valid D2020 E).
Notation wf_meta := (wf_meta tok).
Notation safe := (safe E tok).
Notation reads_ := (reads items text_ok).
Notation prog := (prog rty St).
Notation field := (field rval).
Notation variant := (variant rval).
Variable S : settings St.
Hypothesis HSt : s_contract S = Deserialize.
Variable seen : map_t -> Prop.
Variable R : rty -> Prop.
Variable J : rty -> json -> Prop.
Notation takes := (field_takes items).

(** ** What is known of the schemas *)
Definition acc (w : rty) (s : json) : Prop := forall x, J w x -> reads_ w x -> ok_ s x = true.
(** The schema has a property for every key the struct looks at. *)
Definition full (w : rty) (m : map_t) : Prop := forall n, takes_key items w n -> mget n (props_of m) <> None.
Definition open_form (w : rty) (m : map_t) : Prop := open_schema items w m /\ full w m.
(** Keys that the struct does not look at may be added. *)
Definition opens (w : rty) (s : json) : Prop := forall tag o, J w (JObj o) -> open_struct items w -> ~ takes_key items w tag ->
  NoDup (map fst o) -> ok_ s (JObj (mdel tag o)) = true -> ok_ s (JObj o) = true.
Definition A (w : rty) (s : json) : Prop :=
  (R w /\ safe s /\ acc w s) /\ opens w s /\ (w = TUnit -> s = type_schema "null")
  /\ (open_struct items w -> (exists r, s = new_ref r) \/ exists m, s = JObj m /\ open_form w m).
Definition key_form (s : json) : Prop := s = type_schema "string" \/ s = char_schema \/ exists i, s = int_schema i.
Definition struct_form (w : rty) (s : json) : Prop :=
  (open_struct items (unwrap w) -> exists m, s = JObj m /\ open_form (unwrap w) m)
  /\ (forall k t, w = TMap k t -> key_string k -> exists vs, s = obj [("type", JStr "object"); ("additionalProperties", vs)] /\ vs <> JBool false).
Definition C (w : rty) (s : json) : Prop :=
  A w s /\ (key_string w -> s = type_schema "string") /\ (accepts_key w -> key_form s) /\ (forall i, w = TInt i -> s = int_schema i) /\ struct_form w s.
Definition below (j : json) : Prop := forall w x, R w -> depth x < depth j -> input sets x -> J w x.
Definition whole (p : rty -> Prop) (j : json) : Prop := forall w x, R w -> p w -> depth x <= depth j -> input sets x -> J w x.
Notation post := (post S seen A C).

Lemma reads_fwd t j : reads_ (TFwd t) j -> reads_ t j.
Proof. intros H. inversion H; subst. assumption. Qed.
Lemma bare_strip t j : bare t = true -> reads_ t j -> reads_ (strip_option t) j.
Proof.
  induction t; cbn [bare strip_option]; try discriminate; auto. intros HB H. apply IHt; [exact HB|now apply reads_fwd].
Qed.
Lemma bare_option t : bare t = true -> is_option t = false.
Proof. induction t; cbn [bare is_option]; auto; discriminate. Qed.
Lemma bare_flat t o : bare t = true -> open_struct items (strip_option t) -> reads_flat items text_ok t o -> reads_ (strip_option t) (JObj o).
Proof.
  intros HB HO H. induction H as [t o|t o|k t o|t o _ IH|i cs ts def fs o H1 H2 H3]; try discriminate HB.
  - destruct HO as (i & cs & ts & def & fs & HX & _). discriminate HX.
  - apply IH; [exact HB|exact HO].
  - exact H3.
Qed.

Lemma satisfied a j : meets text_ok a j = true -> satisfies E a j = true.
Proof. apply (fm_meets _ _ HFm). Qed.

(** ** Fields *)
Definition field_ok (f : field) (s : json) : Prop :=
  R (f_read f) /\ safe s /\ forall x, J (f_read f) x -> reads_ (f_ty f) x -> meets text_ok (f_valid f) x = true -> ok_ s x = true.

Lemma field_post f Q k : accepts_field wf_meta f -> (forall s, field_ok f s -> post Q (k s)) -> post Q (field_schema f k).
Proof.
  intros [HW HB] H. unfold field_schema, field_ok in *. destruct (f_required f) eqn:EQ; unfold f_read in H; rewrite EQ in H; cbn [Derivation.post].
  - intros s [[(HR & HN & HK) _] _]. apply H. split; [exact HR|]. split; [apply safe_mutators; auto; apply HFm|].
    intros x HX Hx HM. apply (valid_mutators E tok); auto; [apply HN|now apply satisfied|]. apply HK; [exact HX|]. apply bare_strip; auto.
  - intros s [(HR & HN & HK) _]. apply H. split; [exact HR|]. split; [apply safe_mutators; auto; apply HFm|].
    intros x HX Hx HM. apply (valid_mutators E tok); auto; [apply HN|now apply satisfied].
Qed.

Lemma tuple_fields_post Q fs : forall k, (forall f, In f fs -> accepts_field wf_meta f) ->
  (forall ss, Forall2 field_ok (taken fs) ss -> post Q (k ss)) -> post Q (tuple_fields Deserialize fs k).
Proof.
  induction fs as [|f fs IH]; intros k HW H; cbn [tuple_fields]; [apply H; constructor|]. cbn [included].
  unfold taken in H. cbn [filter] in H. fold (taken fs) in H. destruct (negb (f_skip_de f)).
  - apply field_post; [apply HW; now left|]. intros s Hs. apply IH; [intros g Hg; apply HW; now right|]. intros ss Hss. apply H. now constructor.
  - apply IH; [intros g Hg; apply HW; now right|exact H].
Qed.

Lemma pairwise_accepts (fs : list field) : forall ss l, Forall2 field_ok fs ss ->
  Forall2 reads_ (map f_ty fs) l -> Forall2 (fun f j => meets text_ok (f_valid f) j = true) fs l ->
  (forall (f : field) x, R (f_read f) -> In x l -> J (f_read f) x) -> pairwise E ss l = true.
Proof.
  induction fs as [|f fs IH]; intros ss l HF H1 H2 HJ; inversion HF; subst.
  - inversion H1; subst. reflexivity.
  - cbn [map] in H1. inversion H1; subst. inversion H2; subst.
    match goal with H : field_ok _ _ |- _ => destruct H as (HR & _ & HK) end.
    assert (HP : pairwise E l' l'0 = true) by (apply IH; auto; intros g z Hg Hz; apply HJ; [exact Hg|now right]).
    unfold pairwise in *. apply andb_prop in HP as [P1 P2]. cbn [List.length combine forallb fst snd Nat.eqb]. rewrite P1, P2, andb_true_r. cbn [andb].
    apply HK; auto. apply HJ; [exact HR|now left].
Qed.

(** ** Structs *)
Definition flat_from (f : field) (d : map_t) : Prop :=
  R (strip_option (f_ty f)) /\ acc (strip_option (f_ty f)) (JObj d) /\ open_form (strip_option (f_ty f)) d /\ open_struct items (strip_option (f_ty f)).

Record acc_struct (def deny : bool) (done : list field) (m : map_t) : Prop := {
  as_shape : object_shape m;
  as_type : mget "type" m = Some (JStr "object");
  as_then : mget "then" m = None;
  as_else : mget "else" m = None;
  as_sorted : sorted_keys (map fst m) = true;
  as_psorted : sorted_keys (map fst (props_of m)) = true;
  as_room : mget tok m = None;
  as_props : forall n s, mget n (props_of m) = Some s -> exists f, In f done /\ takes f n
    /\ ((f_flatten f = false /\ field_ok f s) \/ (f_flatten f = true /\ exists d, flat_from f d /\ mget n (props_of d) = Some s));
  as_names : forall f n, In f done -> takes f n -> mget n (props_of m) <> None;
  as_required : forall x, In x (required_of m) -> exists n f, x = JStr n /\ In f done /\ takes f n
    /\ ((f_flatten f = false /\ is_optional def Deserialize f = false) \/ (f_flatten f = true /\ exists d, flat_from f d /\ In (JStr n) (required_of d)));
  as_add : forall a, mget "additionalProperties" m = Some a -> (deny = true /\ a = JBool false)
    \/ exists f, In f done /\ f_flatten f = true /\ is_map (f_ty f) = true /\ R (f_ty f) /\ acc (f_ty f) (obj [("type", JStr "object"); ("additionalProperties", a)]);
  as_open : deny = false -> (forall f, In f done -> f_flatten f = true -> is_map (f_ty f) = false) -> mget "additionalProperties" m = None }.

Lemma acc_safe def deny done m : acc_struct def deny done m -> safe (JObj m).
Proof.
  intros K. assert (HN : forall k, In k kws -> ~ In k object_keywords -> mget k m = None) by (intros k H1 H2; apply shape_absent; auto; apply K).
  assert (HO : forall k, In k ["const"; "not"; "if"; "allOf"; "anyOf"; "oneOf"; "$ref"] -> ~ In k object_keywords).
  { clear. intros k Hk HX. cbn in Hk, HX. repeat (destruct Hk as [<-|Hk]; [repeat (destruct HX as [HX|HX]; [discriminate|]); exact HX|]). exact Hk. }
  apply safe_plain; [apply HFm| | | | |apply K].
  - apply imm_false. intros k Hk. cbn in Hk. repeat (destruct Hk as [<-|Hk]; [first [apply K|apply HN; [in_names|apply HO; in_names]]|]). destruct Hk.
  - apply HN; [in_names|apply HO; in_names].
  - apply HN; [in_names|apply HO; in_names].
  - unfold has_type, s_get. now rewrite (as_type _ _ _ _ K).
Qed.

Lemma optional def (f : field) : (f_required f = true -> bare (f_ty f) = true) -> may_miss def f = true -> is_optional def Deserialize f = true.
Proof.
  intros HB. unfold is_optional, may_miss. destruct (f_required f).
  - rewrite (bare_option _ (HB eq_refl)). destruct def, (f_default f), (f_skip_if f); cbn; congruence.
  - destruct def, (f_default f), (f_skip_if f), (is_option (f_ty f)); cbn; congruence.
Qed.

Lemma takes_own (f : field) k : f_flatten f = false -> takes f k <-> k = f_de f.
Proof. intros H. split; [intros HX; inversion HX; subst; congruence|intros ->; now constructor]. Qed.

Definition field_fits (deny : bool) (f : field) : Prop := if f_flatten f then deny = false /\ accepts_flat items f else accepts_field wf_meta f.

Lemma in_taken (fs : list field) f : In f (taken fs) <-> In f fs /\ f_skip_de f = false.
Proof. unfold taken. rewrite filter_In, negb_true_iff. reflexivity. Qed.

Lemma struct_accepts def deny fs m : (forall f, In f fs -> field_fits deny f) -> acc_struct def deny (taken fs) m ->
  forall j, input sets j -> below j -> whole (style_passes (Struct fs)) j -> reads_style items text_ok def deny (Struct fs) j -> ok_ (JObj m) j = true.
Proof.
  intros HFl K j HI HB HW HR. inversion HR as [| | |def' deny' fs' o Q1 Q2 Q3 Q4 Q5 Q6 Q7 Q8 Q9]; subst. clear HR.
  assert (ND : NoDup (map fst o)) by (apply sorted_NoDup; eapply input_sorted; eauto).
  assert (HFlat : forall f d, In f (taken fs) -> f_flatten f = true -> flat_from f d -> holds E d o).
  { intros f d Hf Hfl (HR & HA & [HO _] & HOp). apply in_taken in Hf as [Hf Hs]. pose proof (HFl f Hf) as HF. unfold field_fits in HF. rewrite Hfl in HF.
    destruct HF as (_ & HBr & _). apply shape_holds; [apply HO|]. apply HA; [|apply bare_flat; auto].
    apply HW; [exact HR|exists f; auto|lia|exact HI]. }
  rewrite valid_shape by apply K. rewrite !andb_true_iff. split; [split|].
  - cbn [props_ok]. apply forallb_forall. intros [n x] Hx. cbn [fst snd]. destruct (mget n (props_of m)) as [s|] eqn:Hs; [|reflexivity].
    destruct (as_props _ _ _ _ K n s Hs) as (f & Hf & Hk & [[Hfl (HR & _ & HK)]|(Hfl & d & HD & Hd)]).
    + apply takes_own in Hk; [|exact Hfl]. subst n. apply in_taken in Hf as [Hf Hsk]. apply (NoDup_mget _ _ _ ND) in Hx as Hx'. apply HK; eauto.
      apply HB; [exact HR|eapply depth_value; eauto|eapply input_value; eauto].
    + eapply (HFlat f d); eauto.
  - cbn [required_ok]. apply forallb_forall. intros y Hy. destruct (as_required _ _ _ _ K y Hy) as (n & f & -> & Hf & Hk & [[Hfl HO]|(Hfl & d & HD & Hd)]); cbn; unfold mhas.
    + apply takes_own in Hk; [|exact Hfl]. subst n. apply in_taken in Hf as [Hf Hsk]. destruct (mget (f_de f) o) eqn:EG; [reflexivity|]. exfalso.
      pose proof (HFl f Hf) as HF. unfold field_fits in HF. rewrite Hfl in HF. destruct HF as [_ HF]. rewrite (optional def f HF) in HO; [discriminate|eauto].
    + pose proof (proj2 (HFlat f d Hf Hfl HD) n Hd). now destruct (mget n o).
  - unfold additional_ok. destruct (mget "additionalProperties" m) as [a|] eqn:EA; [|reflexivity].
    destruct (as_add _ _ _ _ K a EA) as [[HD ->]|(f & Hf & Hfl & HM & HR & HA)].
    + apply forallb_forall. intros [n x] Hx. cbn [fst snd]. destruct (Q9 HD) as [Q9a Q9b]. destruct (Q9b n x Hx) as (f & Hf & Hs & <-).
      pose proof (as_names _ _ _ _ K f (f_de f) (proj2 (in_taken fs f) (conj Hf Hs)) ltac:(constructor; auto)). unfold mhas. now destruct (mget (f_de f) (props_of m)).
    + destruct (f_ty f) eqn:ET; try discriminate HM.
      set (o' := filter (fun kx => negb (mhas (fst kx) (props_of m))) o).
      assert (HX : ok_ (obj [("type", JStr "object"); ("additionalProperties", a)]) (JObj o') = true).
      { apply HA.
        - apply HW; [exact HR|exists f; rewrite ET; apply in_taken in Hf as [Hf _]; auto|apply depth_filter|now apply input_filter].
        - destruct (in_split _ _ Hf) as (before & after & HE).
          assert (HLO : forall n x, In (n, x) o' -> In (n, x) o /\ left_over items fs before n).
          { intros n x Hx. apply filter_In in Hx as [Hx Hn]. cbn [fst] in Hn. apply negb_true_iff in Hn. unfold mhas in Hn. split; [exact Hx|]. split.
            - intros g Hg Hgf <-. pose proof (as_names _ _ _ _ K g (f_de g) Hg ltac:(constructor; auto)). now destruct (mget (f_de g) (props_of m)).
            - intros g Hg Hgf HC Hk. destruct HC as (i & cs & ts & d & fs' & HC & _).
              pose proof (as_names _ _ _ _ K g n) as HX. destruct (mget n (props_of m)); [discriminate|]. apply HX; [|apply TkFlat; [exact Hgf|]|reflexivity].
              + rewrite HE. apply in_or_app. now left.
              + now rewrite HC in Hk |- *. }
          constructor; intros n x Hx; destruct (HLO n x Hx) as [Hx' HL]; [eapply Q7; eauto|eapply Q8; eauto]. }
      rewrite valid_map_schema, forallb_forall in HX. apply forallb_forall. intros [n x] Hx. cbn [fst snd]. destruct (mhas n (props_of m)) eqn:EH; [reflexivity|].
      cbn [orb]. apply (HX (n, x)). apply filter_In. split; [exact Hx|]. cbn [fst]. now rewrite EH.
Qed.

Lemma in_last (g f : field) done : In g (done ++ [f]) -> In g done \/ g = f.
Proof. intros H. apply in_app_or in H as [H|[H|[]]]; auto. Qed.
Lemma safe_default def (f : field) s : safe s -> safe (insert_default def f s).
Proof.
  intros H. unfold insert_default. destruct (f_skip_ser f || _); [exact H|]. destruct (f_default_value f); [|exact H].
  apply (safe_insert E (fm_null _ _ HFm) tok); [apply default_ann|apply (tok_default tok tok_fresh)|exact H].
Qed.

Lemma declare_acc def deny done m f s : acc_struct def deny done m -> field_ok f s -> f_flatten f = false ->
  exists m', insert_object_property (JObj m) (f_de f) (is_optional def Deserialize f) (insert_default def f s) = JObj m'
    /\ acc_struct def deny (done ++ [f]) m'.
Proof.
  intros K HF HFl. set (s' := insert_default def f s).
  assert (HF' : field_ok f s').
  { destruct HF as (H1 & H2 & H3). split; [exact H1|]. split; [now apply safe_default|]. intros x HX HV HM. unfold s'. rewrite valid_default by (eapply sf_schema; eauto). auto. }
  destruct (as_shape _ _ _ _ K) as (S1 & S2 & S3 & S4). set (opt := is_optional def Deserialize f).
  destruct (insert_property_get m (f_de f) opt s' S3 S4) as (m' & HE & G). exists m'. split; [exact HE|].
  assert (GP : props_of m' = mset (f_de f) s' (props_of m)) by (unfold props_of at 1; now rewrite G).
  assert (GR : required_of m' = if opt then required_of m else required_of m ++ [JStr (f_de f)]).
  { unfold required_of at 1. rewrite G. cbn [String.eqb Ascii.eqb Bool.eqb andb]. destruct opt; reflexivity. }
  assert (HL : forall g, In g done -> In g (done ++ [f])) by (intros; apply in_or_app; now left).
  assert (HLf : In f (done ++ [f])) by (apply in_or_app; right; now left).
  split.
  - split; [|split; [|split]].
    + intros k Hk. rewrite G. destruct (String.eqb_spec k "properties") as [->|]; [intros _; in_names|].
      destruct (String.eqb k "required" && negb opt) eqn:ER; [|now apply S1].
      apply andb_true_iff in ER as [ER _]. apply String.eqb_eq in ER as ->. intros _. in_names.
    + rewrite G. exact S2.
    + rewrite G. cbn [String.eqb Ascii.eqb Bool.eqb]. right. eauto.
    + rewrite G. cbn [String.eqb Ascii.eqb Bool.eqb]. destruct (negb opt); cbn [andb]; [right; eauto|exact S4].
  - rewrite G. apply K.
  - rewrite G. apply K.
  - rewrite G. apply K.
  - eapply insert_property_sorted; [exact HE|apply K].
  - rewrite GP. apply sorted_mset, K.
  - rewrite G. assert (T1 : tok <> "properties") by (apply (in_used_neq tok tok_fresh); in_names).
    assert (T2 : tok <> "required") by (apply (in_used_neq tok tok_fresh); in_names).
    destruct (String.eqb_spec tok "properties"); [contradiction|]. destruct (String.eqb_spec tok "required"); [contradiction|]. apply K.
  - intros n y Hy. rewrite GP, mget_mset in Hy. destruct (String.eqb_spec n (f_de f)) as [EQ|NE].
    + injection Hy as <-. subst n. exists f. split; [exact HLf|]. split; [now constructor|]. now left.
    + destruct (as_props _ _ _ _ K n y Hy) as (g & Hg & HX). exists g. split; [auto|exact HX].
  - intros g n Hg Hk. rewrite GP, mget_mset. destruct (String.eqb_spec n (f_de f)) as [EQ|NE]; [discriminate|].
    apply in_last in Hg as [Hg| ->]; [eapply (as_names _ _ _ _ K); eauto|]. apply takes_own in Hk; [contradiction|exact HFl].
  - intros x Hx. assert (HO : In x (required_of m) \/ (opt = false /\ x = JStr (f_de f))).
    { rewrite GR in Hx. destruct opt; [now left|]. apply in_app_or in Hx as [Hx|[Hx|[]]]; auto. }
    destruct HO as [HO|[HO ->]].
    + destruct (as_required _ _ _ _ K x HO) as (n & g & HE' & Hg & HX). exists n, g. auto.
    + exists (f_de f), f. do 3 (split; [auto; now constructor|]). left. auto.
  - intros a Ha. rewrite G in Ha. cbn [String.eqb Ascii.eqb Bool.eqb andb] in Ha. destruct (as_add _ _ _ _ K a Ha) as [HX|(g & Hg & HX)]; [now left|]. right. exists g. auto.
  - intros HD HM. rewrite G. cbn [String.eqb Ascii.eqb Bool.eqb andb]. apply (as_open _ _ _ _ K HD). auto.
Qed.

Lemma flat_acc def deny done m f s : acc_struct def deny done m -> C (strip_option (f_ty f)) s -> f_flatten f = true -> deny = false ->
  bare (f_ty f) = true -> open_struct items (strip_option (f_ty f)) ->
  exists m', flatten (JObj m) (for_flatten s (is_option (f_ty f) && negb (f_required f))) = JObj m' /\ acc_struct def deny (done ++ [f]) m'.
Proof.
  intros K HC HFl HD HBr HO. destruct HC as (((HR & HNt & HK) & _) & _ & _ & _ & HF & _).
  assert (HU : unwrap (strip_option (f_ty f)) = strip_option (f_ty f)) by (destruct HO as (? & ? & ? & ? & ? & -> & _); reflexivity).
  rewrite HU in HF. destruct (HF HO) as (d & -> & HOs & HFu).
  assert (HNM : is_map (f_ty f) = false) by (destruct (f_ty f) eqn:EQ; try reflexivity; destruct HO as (? & ? & ? & ? & ? & HX & _); discriminate HX).
  rewrite (bare_option _ HBr). cbn [andb].
  destruct (for_flatten_get d false (os_shape _ _ _ HOs) (os_then _ _ _ HOs) (os_else _ _ _ HOs)) as (d' & -> & G & SG). cbn [andb] in G.
  assert (GA : forall k, mget k d' = mget k d).
  { intros k. rewrite G. destruct (mem k ["additionalProperties"; "unevaluatedProperties"]) eqn:EM; [|reflexivity].
    unfold mem in EM. cbn [existsb] in EM. rewrite orb_false_r in EM. apply orb_prop in EM as [EM|EM]; apply String.eqb_eq in EM; subst k.
    - now rewrite (os_open _ _ _ HOs).
    - rewrite (shape_absent d "unevaluatedProperties"); [reflexivity|apply HOs|in_names|].
      clear. intros HX. cbn in HX. repeat (destruct HX as [HX|HX]; [discriminate|]). exact HX. }
  assert (HS' : object_shape d').
  { destruct (os_shape _ _ _ HOs) as (K1 & K2 & K3 & K4). split; [|split; [|split]]; rewrite ?GA; auto. intros k Hk HX. apply K1; [exact Hk|]. now rewrite GA in HX. }
  assert (P1 : props_of d' = props_of d) by (unfold props_of; now rewrite GA).
  assert (R1 : required_of d' = required_of d) by (unfold required_of; now rewrite GA).
  assert (SD : sorted_keys (map fst d') = true) by (apply SG, (os_sorted _ _ _ HOs)).
  destruct (flatten_facts m d' (as_shape _ _ _ _ K) HS' (sorted_NoDup _ SD) (as_psorted _ _ _ _ K)) as (r & -> & F1 & F2 & F3 & F4 & F5 & F6).
  { rewrite P1. apply HOs. }
  exists r. split; [reflexivity|].
  assert (KEEP : forall c, c <> "allOf" -> ~ In c ["oneOf"; "anyOf"] -> mget c d = None -> mget c r = mget c m).
  { intros c0 C1 C2 HX. now rewrite (F5 c0 C1 C2), GA, HX. }
  assert (GP : forall k, mget k (props_of r) = match mget k (props_of d) with Some x => Some x | None => mget k (props_of m) end).
  { intros k. rewrite F2, mget_mappend_NoDup by (apply sorted_NoDup; rewrite P1; apply HOs). now rewrite P1. }
  assert (HT : forall k, mget k (props_of d) <> None -> takes f k) by (intros k Hk; apply TkFlat; [exact HFl|now apply (os_names _ _ _ HOs)]).
  assert (HFr : flat_from f d) by (split; [exact HR|split; [exact HK|split; [split; auto|exact HO]]]).
  rewrite GA, (os_open _ _ _ HOs) in F4.
  assert (FA : mget "additionalProperties" r = mget "additionalProperties" m) by (rewrite F4; now destruct (mget "additionalProperties" m)).
  assert (HL : forall g, In g done -> In g (done ++ [f])) by (intros; apply in_or_app; now left).
  assert (HLf : In f (done ++ [f])) by (apply in_or_app; right; now left).
  split.
  - exact F1.
  - rewrite F5 by (try discriminate; intros [HX|[HX|[]]]; discriminate). rewrite GA, (os_type _ _ _ HOs).
    unfold flatten_plain. rewrite (as_type _ _ _ _ K). cbn [mem existsb String.eqb Ascii.eqb Bool.eqb orb]. apply K.
  - rewrite KEEP; [apply K|discriminate|intros [HX|[HX|[]]]; discriminate|apply HOs].
  - rewrite KEEP; [apply K|discriminate|intros [HX|[HX|[]]]; discriminate|apply HOs].
  - apply F6, K.
  - rewrite F2. apply sorted_mappend, K.
  - assert (HTk : forall k, In k kws -> tok <> k) by (intros k Hk; apply (in_used_neq tok tok_fresh); unfold used; apply in_or_app; now left).
    rewrite KEEP; [apply K|apply HTk; in_names| |exact (sf_room _ _ _ HNt)].
    intros [HX|[HX|[]]]; symmetry in HX; revert HX; apply HTk; in_names.
  - intros n y Hy. rewrite GP in Hy. destruct (mget n (props_of d)) eqn:En.
    + injection Hy as ->. exists f. split; [exact HLf|]. split; [apply HT; congruence|]. right. split; [exact HFl|]. exists d. auto.
    + destruct (as_props _ _ _ _ K n y Hy) as (g & Hg & HX). exists g. split; [auto|exact HX].
  - intros g n Hg Hk. rewrite GP. destruct (mget n (props_of d)) eqn:En; [discriminate|].
    apply in_last in Hg as [Hg| ->]; [eapply (as_names _ _ _ _ K); eauto|]. inversion Hk as [|g' n' _ Hk']; subst; [congruence|]. now elim (HFu n Hk').
  - intros x Hx. rewrite F3, R1 in Hx. apply in_app_or in Hx as [Hx|Hx].
    + destruct (as_required _ _ _ _ K x Hx) as (n & g & HE' & Hg & HX). exists n, g. auto.
    + destruct (os_strings _ _ _ HOs x Hx) as (n & ->). exists n, f. split; [reflexivity|]. split; [exact HLf|].
      split; [apply TkFlat; [exact HFl|now apply (os_required _ _ _ HOs)]|]. right. eauto.
  - intros a Ha. rewrite FA in Ha. destruct (as_add _ _ _ _ K a Ha) as [HX|(g & Hg & HX)]; [now left|]. right. exists g. auto.
  - intros _ HM. rewrite FA. apply (as_open _ _ _ _ K HD). auto.
Qed.

(** A flattened map *)
Lemma map_acc def deny done m f s k0 t0 : acc_struct def deny done m -> C (f_ty f) s -> f_flatten f = true -> deny = false -> f_ty f = TMap k0 t0 -> key_string k0 ->
  (forall g, In g done -> f_flatten g = true -> is_map (f_ty g) = false) ->
  exists m', flatten (JObj m) (for_flatten s (is_option (f_ty f) && negb (f_required f))) = JObj m' /\ acc_struct def deny (done ++ [f]) m'.
Proof.
  intros K HC HFl HD HTy HKs HN.
  destruct HC as (((HR & HNt & HK) & _) & _ & _ & _ & _ & HF). destruct (HF k0 t0 HTy HKs) as (vs & -> & HU).
  assert (HO : is_option (f_ty f) = false) by now rewrite HTy. rewrite HO. cbn [andb].
  unfold obj at 1. set (d := mk [("type", JStr "object"); ("additionalProperties", vs)]).
  assert (GD : forall k, mget k d = if String.eqb k "type" then Some (JStr "object") else if String.eqb k "additionalProperties" then Some vs else None).
  { intros k. unfold d. rewrite mget_mk_NoDup by (repeat constructor; cbn; intuition discriminate). reflexivity. }
  assert (SHd : object_shape d).
  { clearbody d. split; [|split; [|split]]; [|rewrite GD; cbn; auto..]. intros k Hk. rewrite GD.
    destruct (String.eqb_spec k "type") as [->|]; [intros _; in_names|]. destruct (String.eqb_spec k "additionalProperties") as [->|]; [intros _; in_names|congruence]. }
  destruct (for_flatten_get d false SHd) as (d' & -> & G & SG); [now rewrite GD|now rewrite GD|]. cbn [andb] in G.
  assert (GA : forall k, mget k d' = mget k d).
  { intros k. rewrite G. destruct (mem k _ && _) eqn:EM; [|reflexivity]. exfalso. apply andb_prop in EM as [_ EM]. rewrite GD in EM.
    destruct (String.eqb k "type"); [discriminate|]. destruct (String.eqb k "additionalProperties"); [|discriminate]. now destruct vs as [|[]| | | |]. }
  assert (HS' : object_shape d').
  { destruct SHd as (K1 & K2 & K3 & K4). split; [|split; [|split]]; rewrite ?GA; auto. intros k Hk HX. rewrite GA in HX. auto. }
  assert (P1 : props_of d' = []) by (unfold props_of; now rewrite GA, GD).
  assert (R1 : required_of d' = []) by (unfold required_of; now rewrite GA, GD).
  assert (SD : sorted_keys (map fst d') = true) by (apply SG, sorted_mk).
  destruct (flatten_facts m d' (as_shape _ _ _ _ K) HS' (sorted_NoDup _ SD) (as_psorted _ _ _ _ K)) as (r & -> & F1 & F2 & F3 & F4 & F5 & F6).
  { now rewrite P1. }
  exists r. split; [reflexivity|]. rewrite P1 in F2. cbn in F2. rewrite R1, app_nil_r in F3.
  rewrite (as_open _ _ _ _ K HD HN), GA, GD in F4. cbn [String.eqb Ascii.eqb Bool.eqb] in F4.
  assert (KEEP : forall c, c <> "allOf" -> ~ In c ["oneOf"; "anyOf"] -> mget c d = None -> mget c r = mget c m).
  { intros c0 C1 C2 HX. now rewrite (F5 c0 C1 C2), GA, HX. }
  assert (HL : forall g, In g done -> In g (done ++ [f])) by (intros; apply in_or_app; now left).
  assert (HLf : In f (done ++ [f])) by (apply in_or_app; right; now left).
  split.
  - exact F1.
  - rewrite F5 by (try discriminate; intros [HX|[HX|[]]]; discriminate). rewrite GA, GD. cbn [String.eqb Ascii.eqb Bool.eqb].
    unfold flatten_plain. rewrite (as_type _ _ _ _ K). cbn [mem existsb String.eqb Ascii.eqb Bool.eqb orb]. apply K.
  - rewrite KEEP; [apply K|discriminate|intros [HX|[HX|[]]]; discriminate|now rewrite GD].
  - rewrite KEEP; [apply K|discriminate|intros [HX|[HX|[]]]; discriminate|now rewrite GD].
  - apply F6, K.
  - rewrite F2. apply K.
  - assert (HTk : forall k, In k kws -> tok <> k) by (intros k Hk; apply (in_used_neq tok tok_fresh); unfold used; apply in_or_app; now left).
    rewrite KEEP; [apply K|apply HTk; in_names| |exact (sf_room _ _ _ HNt)].
    intros [HX|[HX|[]]]; symmetry in HX; revert HX; apply HTk; in_names.
  - intros n y Hy. rewrite F2 in Hy. destruct (as_props _ _ _ _ K n y Hy) as (g & Hg & HX). exists g. split; [auto|exact HX].
  - intros g n Hg Hk. rewrite F2. apply in_last in Hg as [Hg| ->]; [eapply (as_names _ _ _ _ K); eauto|].
    exfalso. inversion Hk as [|g' n' _ Hk']; subst; [congruence|]. rewrite HTy in Hk'. inversion Hk'.
  - intros x Hx. rewrite F3 in Hx. destruct (as_required _ _ _ _ K x Hx) as (n & g & HE' & Hg & HX). exists n, g. auto.
  - intros a Ha. rewrite F4 in Ha. injection Ha as <-. right. exists f. rewrite HTy in *. auto.
  - intros _ HX. specialize (HX f HLf HFl). now rewrite HTy in HX.
Qed.

Lemma struct_fields_post def deny Q k : forall fs done m, (forall f, In f fs -> field_fits deny f) ->
  ForallOrdPairs (fun g f => f_flatten g = true -> f_flatten f = true -> is_map (f_ty g) = true -> is_map (f_ty f) = true -> False) (done ++ taken fs) ->
  acc_struct def deny done m ->
  (forall m', acc_struct def deny (done ++ taken fs) m' -> post Q (k (JObj m'))) ->
  post Q (struct_fields def Deserialize fs (JObj m) k).
Proof.
  induction fs as [|f fs IH]; intros done m HW ML K H; cbn [struct_fields].
  { apply H. cbn. now rewrite app_nil_r. }
  unfold taken in H, ML. cbn [filter] in H, ML. fold (taken fs) in H, ML. cbn [included].
  pose proof (HW f (or_introl eq_refl)) as HM. unfold field_fits in HM.
  destruct (negb (f_skip_de f)) eqn:ES; cbn [negb].
  - assert (HNext : forall m', acc_struct def deny (done ++ [f]) m' -> post Q (struct_fields def Deserialize fs (JObj m') k)).
    { intros m' K'. apply (IH (done ++ [f]) m').
      + intros g Hg. apply HW. now right.
      + now rewrite <- app_assoc.
      + exact K'.
      + intros m2 K2. apply H. now rewrite <- app_assoc in K2. }
    destruct (f_flatten f) eqn:EF.
    + destruct HM as [HD [HBr HO]]. cbn [Derivation.post]. intros s HC. destruct HO as [HO|(k0 & t0 & HTy & HKs)].
      2: { assert (HC' : C (f_ty f) s) by (rewrite HTy in HC |- *; exact HC).
           destruct (map_acc def deny done m f s k0 t0 K HC' EF HD HTy HKs) as (m' & -> & K'); [|now apply HNext].
           intros g Hg Hgf. pose proof (ordpairs_app _ _ _ ML g f Hg (or_introl eq_refl) Hgf EF) as HX. rewrite HTy in HX. destruct (is_map (f_ty g)); [now elim HX|reflexivity]. }
      destruct (flat_acc def deny done m f s K HC EF HD HBr HO) as (m' & -> & K'). now apply HNext.
    + apply field_post; [exact HM|]. intros s Hs. cbn [name_for].
      destruct (declare_acc def deny done m f s K Hs EF) as (m' & -> & K'). now apply HNext.
  - apply (IH done m); auto. intros g Hg. apply HW. now right.
Qed.

Lemma struct_prog_post def deny Q k fs : (forall f, In f fs -> field_fits deny f) -> one_map fs ->
  (forall m', acc_struct def deny (taken fs) m' -> post Q (k (JObj m'))) -> post Q (struct_prog def deny Deserialize fs k).
Proof.
  intros HW ML H. unfold struct_prog, obj. apply (struct_fields_post def deny Q k fs []); auto.
  assert (HM : forall k, mget k (mk (("type", JStr "object") :: if deny then [("additionalProperties", JBool false)] else []))
     = mget k (("type", JStr "object") :: if deny then [("additionalProperties", JBool false)] else [])).
  { intros n. apply mget_mk_NoDup. destruct deny; repeat constructor; cbn; intuition discriminate. }
  split.
  - split; [|split; [|split]]; try (rewrite HM; destruct deny; cbn; auto; fail).
    intros n _. rewrite HM. cbn [mget]. destruct (String.eqb_spec n "type") as [->|]; [cbn; auto|].
    destruct deny; cbn [mget]; [|congruence]. destruct (String.eqb_spec n "additionalProperties") as [->|]; [cbn; auto|congruence].
  - now rewrite HM.
  - rewrite HM. now destruct deny.
  - rewrite HM. now destruct deny.
  - apply sorted_mk.
  - unfold props_of. rewrite HM. now destruct deny.
  - apply fresh_mk; [exact tok_fresh|]. destruct deny; reflexivity.
  - intros n s Hn. exfalso. unfold props_of in Hn. rewrite HM in Hn. now destruct deny.
  - intros f n [].
  - intros n Hn. unfold required_of in Hn. rewrite HM in Hn. destruct deny; destruct Hn.
  - intros a Ha. rewrite HM in Ha. destruct deny; [|discriminate]. left. cbn in Ha. now injection Ha as <-.
  - intros -> _. now rewrite HM.
Qed.

(** ** Styles *)
Definition style_acc (def deny : bool) (s : style rval) (c : json) : Prop :=
  safe c /\ (forall fs, s = Struct fs -> deny = false -> exists m, c = JObj m /\ acc_struct def false (taken fs) m)
  /\ forall j, input sets j -> below j -> whole (style_passes s) j -> reads_style items text_ok def deny s j -> ok_ c j = true.

Lemma style_post def deny s Q k : accepts_style items wf_meta deny s -> (forall c, style_acc def deny s c -> post Q (k c)) ->
  post Q (style_prog def deny Deserialize s k).
Proof.
  intros HR H. destruct s as [|f|fs|fs]; cbn [style_prog accepts_style] in *.
  - unfold unit_prog. cbn [Derivation.post]. intros c [(HU & HN & HK) (_ & HE & _)]. apply H. split; [exact HN|]. split; [discriminate|]. intros j HI HB HWh HV.
    inversion HV; subst. rewrite (HE eq_refl), valid_type_schema. reflexivity.
  - destruct HR as [HS HM]. apply field_post; [exact HM|]. intros c (HRf & HN & HK). apply H. split; [exact HN|]. split; [discriminate|]. intros j HI HB HWh HV.
    inversion HV; subst. apply HK; auto. apply HWh; [exact HRf|reflexivity|lia|exact HI].
  - apply tuple_fields_post; [exact HR|]. intros ss Hss. apply H. split; [apply (safe_tuple_struct text_ok E HFm tok tok_fresh)|]. split; [discriminate|]. intros j HI HB HWh HV.
    inversion HV; subst. rewrite valid_tuple_struct. apply (pairwise_accepts (taken fs)); auto.
    intros f x HRf Hx. apply HB; [exact HRf|now apply depth_elem|eapply input_elem; eauto].
  - destruct HR as (HM & ML). apply struct_prog_post; [exact HM|exact ML|]. intros m K. apply H. split; [eapply acc_safe; eauto|]. split; [intros fs' [= <-] ->; eauto|].
    intros j HI HB HWh HV. eapply struct_accepts; eauto.
Qed.

(** ** Variants *)
Definition variant_acc (deny : bool) (tg : tagging) (v : variant) (c : json) : Prop :=
  safe c /\ (forall j, input sets j -> below j -> whole (fun w => whole_contents tg v /\ style_passes (v_style v) w) j ->
    reads_variant items text_ok deny tg v j -> ok_ c j = true)
  /\ (v_untagged v = false -> tg <> Untagged -> forall name j, name <> v_de v -> carries tg name j -> ok_ c j = false).

Lemma variant_meta deny tg v c l : wf_meta l -> variant_acc deny tg v c -> variant_acc deny tg v (insert_all l c).
Proof.
  intros HM (H1 & H2 & H3). pose proof (sf_schema _ _ _ H1) as HS. split; [apply safe_insert_all; auto; apply HFm|]. split.
  - intros j HI HB HW HV. rewrite (valid_insert_all E tok) by auto. auto.
  - intros HU HT name j HN HC. rewrite (valid_insert_all E tok) by auto. eauto.
Qed.

Lemma reads_carries deny tg v j : reads_variant items text_ok deny tg v j -> tg <> Untagged -> v_untagged v = false -> carries tg (v_de v) j.
Proof.
  intros H HT HU. inversion H; subst; cbn [carries]; eauto.
  match goal with H : _ = Untagged \/ _ = true |- _ => destruct H; congruence end.
Qed.

Lemma below_value j x : below j -> depth x < depth j -> input sets x -> below x /\ forall p, whole p x.
Proof.
  intros HB HD HX. split.
  - intros w y HR HL HY. apply HB; auto. lia.
  - intros p w y HR _ HL HY. apply HB; auto. lia.
Qed.

Lemma untagged_post deny tg v Q k : accepts_variant items wf_meta deny tg v -> tg = Untagged \/ v_untagged v = true ->
  (forall c, variant_acc deny tg v c -> post Q (k c)) -> post Q (untagged_variant deny Deserialize v true k).
Proof.
  intros (HM & HR & _) HT H. unfold untagged_variant. apply style_post; [exact HR|]. intros c (HN & _ & HK). apply H, variant_meta; [exact HM|]. split; [exact HN|]. split.
  - intros j HI HB HW HV. assert (HV' : reads_style items text_ok false deny (v_style v) j) by (inversion HV; subst; first [assumption|destruct HT; congruence]).
    apply HK; auto. intros w x HRw Hw. apply HW; [exact HRw|]. split; [|exact Hw]. unfold whole_contents. tauto.
  - intros HU HT'. destruct HT; congruence.
Qed.

Lemma external_post deny v Q k : accepts_variant items wf_meta deny External v ->
  (forall c, variant_acc deny External v c -> post Q (k c)) -> post Q (external_variant deny Deserialize v k).
Proof.
  intros HRv H. unfold external_variant. destruct (v_untagged v) eqn:EU; [apply (untagged_post deny External); auto|].
  destruct HRv as (HM & HR & _). unfold v_name. cbn [name_for]. destruct (v_is_unit v) eqn:ES.
  - apply unit_style in ES. apply H, variant_meta; [exact HM|]. unfold new_unit_enum_variant. split; [now apply (safe_const E tok tok_fresh)|]. split.
    + intros j HI HB HW HV. rewrite (valid_string_const E). inversion HV; subst; try congruence; [|apply String.eqb_refl].
      match goal with H : _ = Untagged \/ _ |- _ => destruct H; congruence end.
    + intros _ _ name j HN HC. rewrite (valid_string_const E). destruct HC as [->|(c & ->)]; [|reflexivity]. now apply String.eqb_neq.
  - assert (ES' : v_style v <> Unit) by (rewrite <- unit_style; congruence).
    unfold untagged_variant. apply style_post; [exact HR|]. intros c (HN & _ & HK). apply H, variant_meta; [exact HM|]. split; [apply (safe_external text_ok E HFm tok tok_fresh)|]. split.
    + intros j HI HB HW HV. inversion HV; subst; try congruence; [match goal with H : _ = Untagged \/ _ |- _ => destruct H; congruence end|].
      apply (external_accepts E). assert (HIn : In (v_de v, j0) [(v_de v, j0)]) by now left. pose proof (input_value _ _ _ _ HI HIn) as HX.
      destruct (below_value _ j0 HB (depth_value _ _ _ HIn) HX) as [HB' HW']. auto.
    + intros _ _ name j HNm HC. eapply external_rejects; eauto.
Qed.

Lemma form_open w s : C w s -> open_struct items w -> exists m, s = JObj m /\ open_form w m.
Proof.
  intros (_ & _ & _ & _ & HF & _) HO. assert (HU : unwrap w = w) by (destruct HO as (? & ? & ? & ? & ? & -> & _); reflexivity).
  rewrite HU in HF. auto.
Qed.

Lemma internal_post deny tag v Q k : accepts_variant items wf_meta deny (Internal tag) v ->
  (forall c, variant_acc deny (Internal tag) v c -> post Q (k c)) -> post Q (internal_variant items deny Deserialize tag v k).
Proof.
  intros HRv H. unfold internal_variant. destruct (v_untagged v) eqn:EU; [apply (untagged_post deny (Internal tag)); auto|].
  destruct HRv as (HM & HR & HT). specialize (HT EU). unfold v_name. cbn [name_for].
  assert (HObj : forall m, usual m -> (forall k, In k kws -> mget k m <> None -> In k object_keywords) -> mget tok m = None ->
     (forall j, input sets j -> below j -> whole (fun w => whole_contents (Internal tag) v /\ style_passes (v_style v) w) j ->
        reads_variant items text_ok deny (Internal tag) v j -> ok_ (apply_internal_tag tag (v_de v) deny (JObj m)) j = true) ->
     post Q (k (insert_all (v_meta v) (apply_internal_tag tag (v_de v) deny (JObj m))))).
  { intros m HU HKw HTok HV. apply H, variant_meta; [exact HM|]. split; [now apply (tagged_safe text_ok E HFm tok tok_fresh)|]. split; [exact HV|].
    intros _ _ name j HN HC. apply (tagged_rejects E) with (name' := name); auto. }
  assert (HOwn : forall m, object_shape m -> usual m) by (intros m (_ & _ & ? & ?); split; auto).
  destruct (v_style v) as [|f|fs|fs] eqn:ES; try contradiction.
  - unfold unit_prog. cbn [Derivation.post]. intros c [(HU & HN & _) (_ & HE & _)]. rewrite (HE eq_refl). unfold type_schema, obj. apply HObj.
    + split; left; reflexivity.
    + intros c0 _. cbn. destruct (String.eqb_spec c0 "type") as [->|]; [intros _; in_names|congruence].
    + cbn. destruct (String.eqb_spec tok "type") as [->|]; [|reflexivity]. exfalso. apply tok_fresh. in_names.
    + intros j HI HB HW HV. apply (tag_sem_unit E tag (v_de v) deny j (proj1 HI)).
      inversion HV; subst; try congruence; [match goal with H : _ = Untagged \/ _ |- _ => destruct H; congruence end|]. exists o. split; [reflexivity|]. split; [assumption|congruence].
  - destruct HT as (HNo & HO & HTk). destruct HR as [HSk HRf].
    assert (HTy : f_read f = f_ty f) by (unfold f_read; destruct HO as (i & cs & ts & def & fs & HX & _); rewrite HX; now destruct (f_required f)).
    assert (HRd : forall j, reads_variant items text_ok deny (Internal tag) v j -> exists o, j = JObj o /\ mget tag o = Some (JStr (v_de v)) /\ reads_ (f_ty f) (JObj (mdel tag o))).
    { intros j HV. inversion HV; subst; try congruence; [match goal with H : _ = Untagged \/ _ |- _ => destruct H; congruence end|].
      match goal with H1 : v_style v = Newtype ?g, H2 : v_style v = Newtype f |- _ => rewrite H1 in H2; injection H2 as -> end. eauto. }
    assert (INL : forall m, open_schema items (f_ty f) m -> R (f_ty f) -> safe (JObj m) -> acc (f_ty f) (JObj m) ->
       post Q (k (insert_all (v_meta v) (apply_internal_tag tag (v_de v) deny (field_mutators f (JObj m)))))).
    { intros m HOs HRm HSf HK. destruct (open_mutators items E tok seen (f_ty f) f m (proj1 HRf) HNo HOs) as (m' & HE & HOs' & HV'). rewrite HE.
      assert (HSm : safe (field_mutators f (JObj m))) by (apply safe_mutators; auto; [apply HFm|apply HRf]). rewrite HE in HSm.
      apply HObj; [apply HOwn, HOs'|apply HOs'|exact (sf_room _ _ _ HSm)|].
      intros j HI HB HW HV. apply HRd in HV as (o & -> & HG & HV). apply (tag_sem_struct E tag (v_de v) deny m' (JObj o)); [apply HOs'|apply HOs'| | |apply HI|].
      - destruct (mget tag (props_of m')) eqn:EP; [|reflexivity]. exfalso. apply HTk. apply (os_names _ _ _ HOs'). congruence.
      - intros HX. apply HTk. now apply (os_required _ _ _ HOs').
      - exists o. split; [reflexivity|]. split; [exact HG|]. rewrite HV'. apply HK; [|exact HV].
        apply HW; [exact HRm| |apply depth_mdel|now apply input_mdel]. split; [right; right; eauto|]. rewrite ?ES. now symmetry. }
    destruct (f_required f) eqn:EQ.
    + unfold field_schema. rewrite EQ. cbn [Derivation.post]. unfold f_read in HTy. rewrite EQ in HTy. rewrite HTy. intros s HC.
      destruct (form_open _ _ HC HO) as (m & -> & HOs & _). destruct HC as ((HA & _) & _). apply INL; [exact HOs|apply HA..].
    + cbn [Derivation.post]. intros s HC. destruct (form_open _ _ HC HO) as (m & -> & HOs & _). destruct HC as ((HA & _) & _).
      unfold for_internal_newtype. rewrite immediate_none.
      2:{ intros c Hc. cbn in Hc.
          assert (HAb : forall c, In c kws -> ~ In c object_keywords -> mget c m = None).
          { intros c' Hc' Ho. apply shape_absent; auto. apply HOs. }
          repeat (destruct Hc as [<-|Hc]; [first [apply (os_then _ _ _ HOs)|apply (os_else _ _ _ HOs)
            |apply HAb; [in_names|intros HX; cbn in HX; repeat (destruct HX as [HX|HX]; [discriminate|]); exact HX]]|]). destruct Hc. }
      set (inl := type_inline items (f_ty f) || _ || _ || _ || _ || _). destruct inl; [apply INL; [exact HOs|apply HA..]|]. cbn [Derivation.post].
      intros a ((HRa & HSa & HKa) & HOp & _ & HSt'). destruct (HSt' HO) as [(r & ->)|(m' & -> & HOs' & _)]; [|now apply INL].
      assert (HNv : f_valid f = no_vattrs) by (unfold no_checks in HNo; unfold f_required in EQ; now rewrite EQ in HNo).
      destruct (ref_like_mutators tok tok_fresh r f HNv (proj1 HRf)) as (m' & HE & HRl). rewrite HE. apply H, variant_meta; [exact HM|].
      split; [now apply (ref_tagged_safe E tok tok_fresh r)|]. split.
      * intros j HI HB HW HV. apply HRd in HV as (o & -> & HG & HV). pose proof (input_sorted _ _ HI) as HSo.
        rewrite <- (mset_same_sorted tag (JStr (v_de v)) o HSo HG). apply (ref_tagged_accepts E tok r); [exact HRl|now apply sorted_mdel|].
        rewrite (mset_same_sorted tag (JStr (v_de v)) o HSo HG).
        assert (HWm : forall o', depth (JObj o') <= depth (JObj o) -> input sets (JObj o') -> J (f_ty f) (JObj o')).
        { intros o' HD HI'. apply HW; [exact HRa| |exact HD|exact HI']. split; [right; right; eauto|]. rewrite ?ES. now symmetry. }
        apply (HOp tag o); [apply HWm; [lia|exact HI]|exact HO|exact HTk|now apply sorted_NoDup|].
        apply HKa; [apply HWm; [apply depth_mdel|now apply input_mdel]|exact HV].
      * intros _ _ name j HN HC'. apply (tagged_rejects E) with (name' := name); auto. now apply (ref_usual tok r).
  - cbn [accepts_style] in HR. destruct HR as (HMf & ML). apply struct_prog_post; [exact HMf|exact ML|]. intros m K.
    apply HObj; [apply HOwn, K|apply K|apply K|]. intros j HI HB HW HV.
    inversion HV; subst; try congruence; [match goal with H : _ = Untagged \/ _ |- _ => destruct H; congruence end|].
    match goal with H1 : v_style v = Struct ?g, H2 : v_style v = Struct fs |- _ => rewrite H1 in H2; injection H2 as -> end.
    apply (tag_sem_struct E tag (v_de v) deny m (JObj o)); [apply K|apply K| | |apply HI|].
    + destruct (mget tag (props_of m)) eqn:EP; [|reflexivity]. exfalso. destruct (as_props _ _ _ _ K _ _ EP) as (f & Hf & Hk & _). exact (HT f Hf Hk).
    + intros HX. destruct (as_required _ _ _ _ K _ HX) as (n & f & [= <-] & Hf & Hk & _). exact (HT f Hf Hk).
    + exists o. split; [reflexivity|]. split; [assumption|]. eapply struct_accepts; eauto.
      * now apply input_mdel.
      * intros w x HRw HD HX. apply HB; auto. pose proof (depth_mdel tag o). lia.
      * intros w x HRw Hw HD HX. apply HW; auto; [|pose proof (depth_mdel tag o); lia]. split; [right; right; eauto|]. auto.
Qed.

Lemma adjacent_ok deny tag content name sub o : tag <> content -> NoDup (map fst o) -> mget tag o = Some (JStr name) ->
  (forall s, sub = Some s -> exists x, mget content o = Some x /\ ok_ s x = true) ->
  (deny = true -> forall k x, In (k, x) o -> k = tag \/ (k = content /\ sub <> None)) ->
  ok_ (adjacent_schema deny tag content name sub) (JObj o) = true.
Proof.
  intros HTC ND HG HS HD. destruct (adjacent_shape text_ok E HFm tok tok_fresh deny tag content name sub) as (m & HE & HSh & HA & [HP HR] & _).
  assert (HAd : mget "additionalProperties" m = if deny then Some (JBool false) else None).
  { change (mget "additionalProperties" (ensure_obj (JObj m)) = if deny then Some (JBool false) else None). rewrite <- HE.
    refine (eq_trans (adjacent_get deny tag content name sub _) _). now destruct deny. }
  rewrite HE, valid_shape by exact HSh. unfold props_of, required_of, additional_ok. rewrite HP, HR, HAd.
  set (ps := (tag, tag_schema name) :: match sub with Some s => [(content, s)] | None => [] end) in *.
  assert (HGp : forall k, mget k (mk ps) = mget k ps).
  { intros k. apply mget_mk_NoDup. unfold ps. destruct sub; repeat constructor; cbn; intuition congruence. }
  rewrite !andb_true_iff. split; [split|].
  - cbn [props_ok]. apply forallb_forall. intros [k x] Hx. cbn [fst snd]. rewrite HGp. unfold ps. cbn [mget]. apply (NoDup_mget _ _ _ ND) in Hx.
    destruct (String.eqb_spec k tag) as [->|].
    + rewrite tag_schema_sem. rewrite HG in Hx. injection Hx as <-. now apply jeq_str.
    + destruct sub as [s|]; [|reflexivity]. cbn [mget]. destruct (String.eqb_spec k content) as [->|]; [|reflexivity].
      destruct (HS s eq_refl) as (y & Hy & HV). congruence.
  - cbn [required_ok]. apply forallb_forall. intros y Hy. unfold ps in Hy. cbn [map fst] in Hy. destruct Hy as [<-|Hy]; [cbn; unfold mhas; now rewrite HG|].
    destruct sub as [s|]; [|destruct Hy]. destruct Hy as [<-|[]]. destruct (HS s eq_refl) as (z & Hz & _). cbn. unfold mhas. now rewrite Hz.
  - destruct deny; [|reflexivity]. apply forallb_forall. intros [k x] Hx. cbn [fst snd]. unfold mhas, props_of. rewrite HP, HGp. unfold ps. cbn [mget].
    destruct (String.eqb_spec k tag); [reflexivity|]. destruct (HD eq_refl k x Hx) as [|[-> HN]]; [contradiction|]. destruct sub; [|congruence].
    cbn [mget]. now rewrite String.eqb_refl.
Qed.

Lemma adjacent_post deny tag content v Q k : accepts_variant items wf_meta deny (Adjacent tag content) v ->
  (forall c, variant_acc deny (Adjacent tag content) v c -> post Q (k c)) -> post Q (adjacent_variant deny Deserialize tag content v k).
Proof.
  intros HRv H. unfold adjacent_variant. destruct (v_untagged v) eqn:EU; [apply (untagged_post deny (Adjacent tag content)); auto|].
  destruct HRv as (HM & HR & HT). destruct (HT EU) as [HTC HD]. unfold v_name. cbn [name_for].
  assert (HSf : forall sub, safe (adjacent_schema deny tag content (v_de v) sub)).
  { intros sub. destruct (adjacent_shape text_ok E HFm tok tok_fresh deny tag content (v_de v) sub) as (m & -> & _ & _ & _ & _ & HX). exact HX. }
  assert (HRj : forall sub, v_untagged v = false -> Adjacent tag content <> Untagged -> forall name j, name <> v_de v -> carries (Adjacent tag content) name j ->
     ok_ (adjacent_schema deny tag content (v_de v) sub) j = false).
  { intros sub _ _ name j HN HC. apply (adjacent_rejects text_ok E HFm tok tok_fresh) with (name' := name); auto. }
  destruct (v_is_unit v) eqn:ES.
  - apply unit_style in ES. specialize (HD ES). apply H, variant_meta; [exact HM|]. split; [apply HSf|]. split; [|apply HRj].
    intros j HI HB HW HV. inversion HV; subst; try congruence; [match goal with H : _ = Untagged \/ _ |- _ => destruct H; congruence end|].
    apply adjacent_ok; auto; [apply sorted_NoDup; eapply input_sorted; eauto|discriminate|congruence].
  - assert (ES' : v_style v <> Unit) by (rewrite <- unit_style; congruence).
    unfold untagged_variant. apply style_post; [exact HR|]. intros c (HN & _ & HK). apply H, variant_meta; [exact HM|]. split; [apply HSf|]. split; [|apply HRj].
    intros j HI HB HW HV. inversion HV; subst; try congruence; [match goal with H : _ = Untagged \/ _ |- _ => destruct H; congruence end|].
    match goal with HC : mget content o = Some ?x |- _ => pose proof (mget_In _ _ _ HC) as HIn; rename x into y end.
    pose proof (input_value _ _ _ _ HI HIn) as HX. destruct (below_value _ y HB (depth_value _ _ _ HIn) HX) as [HB' HW'].
    apply adjacent_ok; auto.
    + apply sorted_NoDup. eapply input_sorted; eauto.
    + intros s [= <-]. exists y. auto.
    + intros Hd n x Hx. match goal with HC : deny = true -> _ |- _ => destruct (HC Hd _ _ Hx) as [| ->] end; [auto|]. right. split; [reflexivity|discriminate].
Qed.

(** ** Enums *)
Lemma variants_post deny tg one vs Q : (forall v (k : json -> prog), In v vs ->
    (forall c, variant_acc deny tg v c -> post Q (k c)) -> post Q (one v k)) ->
  forall k, (forall ss, Forall2 (variant_acc deny tg) (taken_variants vs) ss -> post Q (k ss)) -> post Q (variants Deserialize one vs k).
Proof.
  intros HO. induction vs as [|v vs IH]; intros k H; cbn [variants]; [apply H; constructor|]. cbn [included].
  unfold taken_variants in H. cbn [filter] in H. fold (taken_variants vs) in H. destruct (negb (v_skip_de v)).
  - apply HO; [now left|]. intros c Hc. apply IH; [intros v' k' Hv'; apply HO; now right|]. intros ss Hss. apply H. now constructor.
  - apply IH; [intros v' k' Hv'; apply HO; now right|exact H].
Qed.

(** For one JSON value: the schema accepts it if the variant is read from it, and rejects it if it has another variant's name. *)
Definition decides (tg : tagging) (deny : bool) (j : json) (v : variant) (c : json) : Prop :=
  (reads_variant items text_ok deny tg v j -> ok_ c j = true)
  /\ (v_untagged v = false -> tg <> Untagged -> forall name, name <> v_de v -> carries tg name j -> ok_ c j = false).

Lemma none_of deny tg name j ws ss : Forall2 (decides tg deny j) ws ss -> tg <> Untagged ->
  (forall w, In w ws -> v_untagged w = false /\ v_de w <> name) -> carries tg name j -> filter (fun s => ok_ s j) ss = [].
Proof.
  intros HF HT. induction HF as [|w s ws ss HZ HF IH]; intros HW HC; [reflexivity|]. cbn [filter].
  destruct (HW w (or_introl eq_refl)) as [HU HN]. rewrite (proj2 HZ HU HT name (not_eq_sym HN) HC).
  apply IH; auto. intros w' Hw. apply HW. now right.
Qed.
Lemma one_of deny tg w j ws ss : Forall2 (decides tg deny j) ws ss -> tg <> Untagged -> (forall x, In x ws -> v_untagged x = false) ->
  NoDup (map v_de ws) -> In w ws -> reads_variant items text_ok deny tg w j -> List.length (filter (fun s => ok_ s j) ss) = 1.
Proof.
  intros HF HT. induction HF as [|w' s ws ss HZ HF IH]; intros HU HD HI HR; [destruct HI|]. cbn [map] in HD. inversion HD as [|? ? HN HD']; subst.
  pose proof (reads_carries _ _ _ _ HR HT (HU w HI)) as HC. cbn [filter]. destruct HI as [->|HI].
  - rewrite (proj1 HZ HR). cbn [List.length]. rewrite (none_of deny tg (v_de w) j ws ss HF HT); [reflexivity| |exact HC].
    intros x Hx. split; [apply HU; now right|]. intros HE. apply HN. rewrite <- HE. now apply in_map.
  - rewrite (proj2 HZ (HU w' (or_introl eq_refl)) HT (v_de w)); [|intros HE; apply HN; rewrite <- HE; now apply in_map|exact HC].
    apply IH; auto. intros x Hx. apply HU. now right.
Qed.
Lemma some_of deny tg w j ws ss : Forall2 (decides tg deny j) ws ss -> In w ws -> reads_variant items text_ok deny tg w j -> existsb (fun s => ok_ s j) ss = true.
Proof.
  intros HF HI HR. induction HF as [|w' s ws ss HZ HF IH]; [destruct HI|]. cbn [existsb]. destruct HI as [->|HI]; [now rewrite (proj1 HZ HR)|]. rewrite IH by auto. apply orb_true_r.
Qed.
Lemma existsb_none (vs : list variant) : existsb v_untagged vs = false -> forall v, In v vs -> v_untagged v = false.
Proof. intros H v Hv. apply not_true_iff_false. intros HT. apply not_true_iff_false in H. apply H. apply existsb_exists. eauto. Qed.
Definition own_names (tg : tagging) (vs : list variant) : Prop :=
  tg = Untagged \/ NoDup (map v_de (filter (fun v => negb (v_skip_de v) && negb (v_untagged v)) vs)).
Lemma nodup_filter (p : variant -> bool) (vs : list variant) : NoDup (map v_de vs) -> NoDup (map v_de (filter p vs)).
Proof.
  induction vs as [|v vs IH]; intros H; [constructor|]. cbn [map] in H. inversion H as [|? ? H1 H2]; subst. cbn [filter]. destruct (p v); [|auto].
  cbn [map]. constructor; [|auto]. intros HX. apply H1. apply in_map_iff in HX as (w & HE & Hw). apply filter_In in Hw as [Hw _]. rewrite <- HE. now apply in_map.
Qed.
(** The names are distinct also among some of the variants. *)
Lemma names_taken tg vs (p : variant -> bool) : own_names tg vs -> tg <> Untagged -> (forall v, In v (filter p vs) -> v_untagged v = false) -> NoDup (map v_de (taken_variants (filter p vs))).
Proof.
  intros [H|H] HT HU; [contradiction|]. unfold taken_variants.
  assert (HE : filter (fun v => negb (v_skip_de v)) (filter p vs) = filter p (filter (fun v => negb (v_skip_de v) && negb (v_untagged v)) vs)).
  { clear H. induction vs as [|v vs IH]; [reflexivity|]. cbn [filter] in *. destruct (p v) eqn:EP; cbn [filter].
    - assert (EU : v_untagged v = false) by (apply HU; now left). rewrite EU, andb_true_r. destruct (negb (v_skip_de v)); cbn [filter]; rewrite ?EP; [f_equal|]; apply IH; intros w Hw; apply HU; now right.
    - destruct (negb (v_skip_de v) && negb (v_untagged v)); cbn [filter]; rewrite ?EP; now apply IH. }
  rewrite HE. now apply nodup_filter.
Qed.
Lemma filter_all {T} (l : list T) : filter (fun _ => true) l = l.
Proof. induction l as [|x l IH]; [reflexivity|]. cbn. now rewrite IH. Qed.

Lemma variant_schemas_accept deny tg u vs v j ss : (u = true -> tg <> Untagged) -> own_names tg vs -> Forall2 (decides tg deny j) (taken_variants vs) ss ->
  In v (taken_variants vs) -> reads_variant items text_ok deny tg v j -> ok_ (variant_schemas u vs ss) j = true.
Proof.
  intros HU HO HF HI HR. unfold variant_schemas. destruct (u && negb (existsb v_untagged vs)) eqn:EU.
  - apply andb_true_iff in EU as [-> EU]. apply negb_true_iff in EU. rewrite valid_oneOf. apply Nat.eqb_eq. eapply one_of; eauto.
    + intros x Hx. apply filter_In in Hx as [Hx _]. eapply existsb_none; eauto.
    + rewrite <- (filter_all vs). apply (names_taken tg); auto. rewrite filter_all. now apply existsb_none.
  - rewrite valid_anyOf. eapply some_of; eauto.
Qed.

Lemma unit_names_ok (vs : list variant) v : In v vs -> v_skip_de v = false -> ok_ (unit_names Deserialize vs) (JStr (v_de v)) = true.
Proof.
  intros Hv Hs. unfold unit_names, obj. rewrite valid_mk by (repeat constructor; cbn; intuition discriminate). cbn [forallb fst snd]. unfold kw.
  cbn [String.eqb Ascii.eqb Bool.eqb existsb assertion_names orb]. rewrite chk_type_str, andb_true_r. apply andb_true_iff. split; [reflexivity|].
  cbn [chk_enum]. apply existsb_exists. exists (JStr (v_de v)). split; [|now apply jeq_str]. apply in_map_iff. exists v. split; [reflexivity|]. apply filter_In. cbn [included]. now rewrite Hs.
Qed.

Definition struct_acc (deny : bool) (d : data rval) (c : json) : Prop :=
  forall def fs, d = DStruct def (Struct fs) -> deny = false -> exists m, c = JObj m /\ acc_struct def false (taken fs) m.
Definition data_acc (deny : bool) (d : data rval) (c : json) : Prop :=
  safe c /\ struct_acc deny d c /\ forall j, input sets j -> below j -> whole (data_passes d) j -> reads_data items text_ok deny d j -> ok_ c j = true.

Lemma all_safe deny tg ws ss : Forall2 (variant_acc deny tg) ws ss -> Forall safe ss.
Proof. induction 1; constructor; auto. apply H. Qed.
Lemma all_decide deny tg vs j : input sets j -> below j -> whole (data_passes (DEnum tg vs)) j -> forall ws ss, (forall v, In v ws -> In v vs) ->
  Forall2 (variant_acc deny tg) ws ss -> Forall2 (decides tg deny j) ws ss.
Proof.
  intros HI HB HW ws ss HS HF. induction HF as [|v c ws ss (_ & H2 & H3) HF IH]; constructor.
  - split; [|intros HU HT name HN; now apply H3]. apply H2; auto. intros w x HR [Ht Hp]. apply HW; [exact HR|]. cbn [data_passes]. exists v. split; [apply HS; now left|auto].
  - apply IH. intros w Hw. apply HS. now right.
Qed.

Lemma enum_post deny tg vs Q k : vs <> [] -> (forall v, In v vs -> accepts_variant items wf_meta deny tg v) -> own_names tg vs ->
  (forall c, data_acc deny (DEnum tg vs) c -> post Q (k c)) -> post Q (enum_prog items deny Deserialize tg vs k).
Proof.
  intros HNE HR HO H. unfold enum_prog. destruct vs as [|v0 vs0] eqn:EV; [contradiction|]. rewrite <- EV in *. clear EV v0 vs0.
  assert (HIn : forall (v : variant) ws, In v (taken_variants ws) <-> In v ws /\ v_skip_de v = false) by (intros v ws; unfold taken_variants; now rewrite filter_In, negb_true_iff).
  assert (HRest : forall one u, tg <> External -> (u = true -> tg <> Untagged) -> (forall v (k : json -> prog), In v vs -> (forall c, variant_acc deny tg v c -> post Q (k c)) -> post Q (one v k)) ->
     post Q (variants Deserialize one vs (fun ss => k (variant_schemas u vs ss)))).
  { intros one u HE HU HOne. apply (variants_post deny tg); [exact HOne|]. intros ss Hss. apply H. split; [apply safe_variant_schemas; auto; eapply all_safe; eauto|].
    split; [now intros ? ?|]. intros j HI HB HW HV. inversion HV; subst. eapply variant_schemas_accept; eauto; [|apply HIn; eauto].
    apply (all_decide deny tg vs); auto. intros w Hw. apply HIn in Hw. tauto. }
  destruct tg as [| |tag|tag content].
  - clear HRest. set (units := filter plain_unit vs). set (cpx := filter (fun v => negb (plain_unit v)) vs).
    assert (HPl : forall v : variant, plain_unit v = true -> v_is_unit v = true /\ v_untagged v = false).
    { intros v. unfold plain_unit. rewrite !andb_true_iff, negb_true_iff. tauto. }
    assert (HUn : forall v j, In v units -> v_skip_de v = false -> reads_variant items text_ok deny External v j -> j = JStr (v_de v) /\ ok_ (unit_names Deserialize units) j = true).
    { intros v j Hv Hs HV. pose proof Hv as Hv'. apply filter_In in Hv' as [_ HP]. apply HPl in HP as [HP HU]. apply unit_style in HP.
      assert (HJ : j = JStr (v_de v)) by (inversion HV; subst; try congruence; match goal with H : _ = Untagged \/ _ |- _ => destruct H; congruence end).
      split; [exact HJ|]. subst j. now apply unit_names_ok. }
    assert (HCx : forall v j, In v cpx -> v_skip_de v = false -> v_untagged v = false -> reads_variant items text_ok deny External v j -> ok_ (unit_names Deserialize units) j = false).
    { intros v j Hv Hs HU HV. apply not_true_iff_false. intros HX. apply unit_names_inv in HX as (u & Hu & Hus & ->).
      apply filter_In in Hu as [Hu HP]. apply filter_In in Hv as [Hv HNP].
      assert (HC : carries External (v_de v) (JStr (v_de u))) by (eapply reads_carries; eauto; discriminate).
      destruct HC as [HC|(c & HC)]; [|discriminate]. injection HC as HC.
      destruct HO as [HO|HO]; [discriminate|]. assert (HE : u = v) by (eapply (names_own vs HO v); eauto; apply HPl; exact HP). subst u. rewrite HP in HNP. discriminate. }
    assert (HSpl : forall v, In v vs -> In v units \/ In v cpx) by (intros v Hv; unfold units, cpx; rewrite !filter_In; destruct (plain_unit v); auto).
    assert (HSf : safe (unit_names Deserialize units)) by (unfold unit_names; apply safe_obj; [exact (fm_null _ _ HFm)|exact tok_fresh|reflexivity..]).
    assert (HInC : forall v, In v cpx -> In v vs) by (intros v Hv; now apply filter_In in Hv).
    assert (HOc : (forall v, In v cpx -> v_untagged v = false) -> NoDup (map v_de (taken_variants cpx))) by (intros HU; apply (names_taken External); auto; discriminate).
    assert (HDj : forall u, In u units -> v_skip_de u = false -> (forall v, In v cpx -> v_untagged v = false) -> forall w, In w (taken_variants cpx) -> v_untagged w = false /\ v_de w <> v_de u).
    { intros u Hu Hus HU w Hw. apply HIn in Hw as [Hw Hws]. split; [now apply HU|]. intros HE. pose proof (HU w Hw) as HUw.
      apply filter_In in Hu as [Hu HP]. apply filter_In in Hw as [Hw HNP]. destruct HO as [HO|HO]; [discriminate|].
      assert (HE' : w = u) by (eapply (names_own vs HO u); eauto; apply HPl; exact HP). subst u. rewrite HP in HNP. discriminate. }
    destruct cpx as [|c0 cs0] eqn:EC.
    { apply H. split; [exact HSf|]. split; [now intros ? ?|]. intros j _ _ _ HV. inversion HV; subst. destruct (HSpl v) as [Hu|[]]; auto. eapply HUn; eauto. }
    rewrite <- EC in *. clear EC c0 cs0. apply (variants_post deny External).
    + intros v k' Hv. apply external_post. now apply HR, HInC.
    + intros ss Hss. apply H.
      assert (HSs : Forall safe (match units with [] => ss | _ => unit_names Deserialize units :: ss end)).
      { pose proof (all_safe _ _ _ _ Hss). destruct units; [assumption|now constructor]. }
      split; [now apply safe_variant_schemas|]. split; [now intros ? ?|]. intros j HI HB HW HV.
      assert (HDc : Forall2 (decides External deny j) (taken_variants cpx) ss) by (apply (all_decide deny External vs); auto; intros w Hw; apply HIn in Hw; apply HInC; tauto).
      inversion HV as [|? ? ? v ? Hv Hs _ HV'| | |]; subst.
      assert (HT : External <> Untagged) by discriminate.
      unfold variant_schemas. destruct (true && negb (existsb v_untagged cpx)) eqn:EU.
      * cbn [andb] in EU. apply negb_true_iff in EU. pose proof (existsb_none _ EU) as HUc. rewrite valid_oneOf. apply Nat.eqb_eq. destruct (HSpl v Hv) as [Hu|Hc].
        -- destruct (HUn v j Hu Hs HV') as [HJ HOk]. destruct units as [|u0 us] eqn:EUs; [destruct Hu|]. rewrite <- EUs in *. cbn [filter]. rewrite HOk. cbn [List.length].
           rewrite (none_of deny External (v_de v) j _ _ HDc HT); [reflexivity|now apply HDj|now left].
        -- assert (HC1 : List.length (filter (fun s => ok_ s j) ss) = 1) by (eapply one_of; eauto; [intros x Hx; apply HIn in Hx; now apply HUc|apply HIn; auto]).
           destruct units as [|u0 us] eqn:EUs; [exact HC1|]. rewrite <- EUs in *. cbn [filter]. rewrite (HCx v j Hc Hs (HUc v Hc) HV'). exact HC1.
      * rewrite valid_anyOf. destruct (HSpl v Hv) as [Hu|Hc].
        -- destruct (HUn v j Hu Hs HV') as [_ HOk]. destruct units as [|u0 us] eqn:EUs; [destruct Hu|]. rewrite <- EUs in *. cbn [existsb]. now rewrite HOk.
        -- assert (HC1 : existsb (fun s => ok_ s j) ss = true) by (eapply some_of; eauto; apply HIn; auto).
           destruct units; [exact HC1|]. cbn [existsb]. rewrite HC1. apply orb_true_r.
  - apply HRest; [discriminate|discriminate|]. intros v k' Hv HK. apply (untagged_post deny Untagged); auto.
  - apply HRest; [discriminate|discriminate|]. intros v k' Hv HK. apply internal_post; auto.
  - apply HRest; [discriminate|discriminate|]. intros v k' Hv HK. apply adjacent_post; auto.
Qed.

(** ** Declarations *)
Lemma data_post deny d Q k : accepts_data items wf_meta deny d -> (forall c, data_acc deny d c -> post Q (k c)) ->
  post Q (data_prog items deny Deserialize d k).
Proof.
  intros HR H. induction d as [def s|tg vs|zs|from into own IH]; cbn [data_prog accepts_data] in *.
  - apply style_post; [exact HR|]. intros c (HN & HSt' & HK). apply H. split; [exact HN|]. split; [intros def' fs [= <- ->]; now apply HSt'|]. intros j HI HB HW HV. inversion HV; subst. now apply HK.
  - destruct HR as (HNE & HR & HO). apply enum_post; auto.
  - apply H. split; [apply (safe_repr text_ok E HFm tok tok_fresh)|]. split; [now intros ? ?|]. intros j HI HB HW HV. inversion HV; subst. now apply repr_ok.
  - cbn [converted]. destruct from as [t|].
    + cbn [Derivation.post]. intros c [[(HRt & HN & HK) _] _]. apply H. split; [exact HN|]. split; [now intros ? ?|]. intros j HI HB HW HV. inversion HV; subst. apply HK; [|assumption].
      apply HW; [exact HRt|reflexivity|lia|exact HI].
    + apply IH; [exact HR|]. intros c (HN & _ & HK). apply H. split; [exact HN|]. split; [now intros ? ?|]. intros j HI HB HW HV. inversion HV; subst. now apply HK.
Qed.

(** ** Types *)
Definition fits (u : rty) (c : json) : Prop :=
  safe c /\ (u = TUnit -> c = type_schema "null") /\ (key_string u -> c = type_schema "string") /\ (accepts_key u -> key_form c)
  /\ (forall i, u = TInt i -> c = int_schema i) /\ struct_form u c
  /\ forall j, input sets j -> below j -> whole (passes items u) j -> reads_ (unwrap u) j -> ok_ c j = true.

Lemma no_struct u c : (forall i cs ts, unwrap u <> TAdt i cs ts) -> is_map u = false -> struct_form u c.
Proof.
  intros H HM. split.
  - intros (i & cs & ts & def & fs & HX & _). now elim (H i cs ts).
  - intros k t -> _. discriminate HM.
Qed.

Lemma acc_open i cs ts def fs m : d_data (it_decl (items i) cs ts) = DStruct def (Struct fs) ->
  (forall f, In f (taken fs) -> f_flatten f = true -> is_map (f_ty f) = false) -> acc_struct def false (taken fs) m ->
  open_form (TAdt i cs ts) m.
Proof.
  intros HD HM K.
  assert (HT : forall n f, In f (taken fs) -> takes f n -> takes_key items (TAdt i cs ts) n).
  { intros n f Hf Hk. unfold taken in Hf. apply filter_In in Hf as [Hf Hs]. apply negb_true_iff in Hs. econstructor; eauto. }
  split.
  - split; try apply K; auto.
    + intros n Hn. destruct (mget n (props_of m)) as [s|] eqn:EP; [|congruence]. destruct (as_props _ _ _ _ K n s EP) as (f & Hf & Hk & _). eauto.
    + intros n Hn. destruct (as_required _ _ _ _ K _ Hn) as (n' & f & [= <-] & Hf & Hk & _). eauto.
    + intros x Hx. destruct (as_required _ _ _ _ K _ Hx) as (n' & f & -> & _). eauto.
  - intros n Hn. inversion Hn as [? ? ? def' fs' f k H1 H2 H3 H4| |]; subst. rewrite HD in H1. injection H1 as <- <-.
    apply (as_names _ _ _ _ K f); [|exact H4]. unfold taken. apply filter_In. rewrite H3. auto.
Qed.

Lemma form_meta w l m : wf_meta l -> open_form w m -> exists m', insert_all l (JObj m) = JObj m' /\ open_form w m'.
Proof.
  intros HW [HO HF]. destruct (open_meta items E tok w l m HW HO) as (m' & HE & HO' & _). exists m'. split; [exact HE|]. split; [exact HO'|].
  intros n Hn. specialize (HF n Hn). assert (HP : props_of m' = props_of m); [|now rewrite HP].
  unfold props_of. replace (mget "properties" m') with (mget "properties" m); [reflexivity|].
  revert m HO HF HE. clear HO' Hn. induction l as [|[k x] l IH]; intros m HO HF HE; [now injection HE as <-|].
  rewrite insert_all_cons in HE. unfold insert in HE. cbn [fst snd ensure_obj ensure_object] in HE.
  assert (HN : k <> "properties") by (intros ->; destruct (HW _ _ (or_introl eq_refl)) as [[A1 _] _]; apply A1; in_names).
  assert (HG : mget "properties" (mset k x m) = mget "properties" m) by (rewrite mget_mset; destruct (String.eqb_spec "properties" k); [congruence|reflexivity]).
  rewrite <- HG. apply IH; [intros k' x' Hin; apply (HW k' x'); now right| | |exact HE].
  - apply (open_get items w m); [exact HO|apply sorted_mset, HO|]. intros k' Hk. rewrite mget_mset. destruct (String.eqb_spec k' k) as [->|]; [|reflexivity].
    destruct (HW k x (or_introl eq_refl)) as [[A1 A2] _]. destruct Hk; contradiction.
  - unfold props_of in *. now rewrite HG.
Qed.

Lemma subs_post Q ts : forall k, (forall ss, Forall2 A ts ss -> post Q (k ss)) -> post Q (subs ts k).
Proof.
  induction ts as [|t ts IH]; intros k H; cbn [subs]; [apply H; constructor|]. cbn [Derivation.post]. intros s Hs. apply IH. intros ss Hss. apply H. now constructor.
Qed.

Lemma elems_accept t s l : A t s -> input sets (JArr l) -> below (JArr l) -> Forall (reads_ t) l -> forallb (ok_ s) l = true.
Proof.
  intros [(HR & _ & HK) _] HI HB HV. rewrite Forall_forall in HV. apply forallb_forall. intros x Hx. apply HK; [|now apply HV].
  apply HB; [exact HR|now apply depth_elem|eapply input_elem; eauto].
Qed.

Lemma tuple_accept ts : forall ss l, Forall2 A ts ss -> Forall2 reads_ ts l -> (forall t x, R t -> In x l -> J t x) -> pairwise E ss l = true.
Proof.
  induction ts as [|t ts IH]; intros ss l HF HP HJ; inversion HF; subst; inversion HP; subst; [reflexivity|].
  match goal with H : A _ _ |- _ => destruct H as [(HR & _ & HK) _] end.
  assert (HP' : pairwise E l' l'0 = true) by (apply IH; auto; intros g z Hg Hz; apply HJ; [exact Hg|now right]).
  unfold pairwise in *. apply andb_prop in HP' as [P1 P2]. cbn [List.length combine forallb fst snd Nat.eqb]. rewrite P1, P2, andb_true_r. cbn [andb].
  apply HK; auto. apply HJ; [exact HR|now left].
Qed.

(** The keys of maps *)
Lemma key_input k n : accepts_key k -> reads_key k n -> exists j, key_of j n /\ reads_ k j /\ (forall l, j <> JArr l) /\ (forall o, j <> JObj o).
Proof.
  intros HA H. induction H as [s|s H|i z H|t s H IH].
  - exists (JStr s). repeat split; try discriminate; constructor.
  - exists (JStr s). repeat split; try discriminate; constructor. exact H.
  - exists (JNum (NInt z)). repeat split; try discriminate; constructor. exact H.
  - destruct (IH HA) as (j & H1 & H2 & H3). exists j. split; [exact H1|]. split; [now constructor|exact H3].
Qed.
Lemma key_alternatives s path defs : key_form s -> exists m, s = JObj m /\ alternatives s = [m] /\ resolve_option path defs m = m.
Proof.
  intros [->|[->|(i & ->)]]; [eexists; split; [reflexivity|split; reflexivity]..|].
  destruct i; (eexists; split; [reflexivity|split; reflexivity]).
Qed.
Lemma depth_leaf j x : (forall l, j <> JArr l) -> (forall o, j <> JObj o) -> depth j <= depth x.
Proof. intros H1 H2. destruct j as [| | | |l|o]; try (destruct x; cbn [depth]; lia); [now elim (H1 l)|now elim (H2 o)]. Qed.

(** Leaves *)
Lemma int_accepts i z : in_range i z = true -> ok_ (int_schema i) (JNum (NInt z)) = true.
Proof.
  intros EI. rewrite valid_int, (fm_int _ _ HFm i z EI). unfold in_range in EI. apply andb_prop in EI as [I1 I2].
  apply Z.leb_le in I1, I2. destruct i; cbn [num_integral andb lower upper above TypesShape.below int_range fst snd] in *;
    rewrite ?num_leb_int, ?andb_true_iff, ?Z.leb_le; repeat split; cbn in I1, I2; lia.
Qed.
Lemma nonzero_accepts i z : in_range i z = true -> z <> 0%Z -> ok_ (nonzero_schema i) (JNum (NInt z)) = true.
Proof.
  intros EI EZ. rewrite valid_nonzero, (fm_int _ _ HFm i z EI). unfold in_range in EI. apply andb_prop in EI as [I1 I2].
  apply Z.leb_le in I1, I2.
  destruct i; cbn [num_integral andb lower upper above TypesShape.below int_range fst snd is_signed negb orb] in *;
    unfold num_eqb, num_cmp; cbn [num_me]; rewrite ?num_leb_int, ?andb_true_iff, ?Z.leb_le;
    repeat split; cbn in I1, I2; try lia;
    rewrite Z.min_id, Z.sub_diag; cbn [Z.pow]; rewrite !Z.mul_1_r; destruct (Z.compare_spec z 0); auto; lia.
Qed.
Lemma delta_accepts s n : time_delta_ok s n = true -> ok_ time_delta_schema (JArr [JNum (NInt s); JNum (NInt n)]) = true.
Proof.
  intros EB. unfold time_delta_ok in EB. apply andb_prop in EB as [EB B1]. apply andb_prop in EB as [B2 B3].
  assert (B0 : in_range I64 s = true).
  { apply Z.leb_le in B1, B2. apply Z.ltb_lt in B3. change (((-9223372036854775808 <=? s) && (s <=? 9223372036854775807))%Z = true).
    rewrite andb_true_iff, !Z.leb_le. lia. }
  rewrite time_delta_tuple, valid_tuple_schema. unfold pairwise. cbn [List.length combine forallb fst snd Nat.eqb].
  rewrite valid_formatted, valid_time_nanos, num_leb_int, num_ltb_int, B2, B3. cbn [type_ok String.eqb Ascii.eqb Bool.eqb num_integral andb].
  change "int64" with (int_format I64). now rewrite (fm_int _ _ HFm I64 s B0).
Qed.

Lemma two_props a sa b sb o x y : a <> b -> NoDup (map fst o) -> mget a o = Some x -> mget b o = Some y -> ok_ sa x = true -> ok_ sb y = true ->
  ok_ (required_props [(a, sa); (b, sb)]) (JObj o) = true.
Proof.
  intros HN ND HA HB H1 H2. rewrite valid_required_props. cbn [forallb fst]. unfold mhas. rewrite HA, HB. cbn [andb props_ok].
  apply forallb_forall. intros [k z] Hin. cbn [fst snd]. apply (NoDup_mget _ _ _ ND) in Hin.
  rewrite mget_mk_NoDup by (cbn; repeat constructor; cbn; intuition congruence). cbn [mget].
  destruct (String.eqb_spec k a) as [->|]; [rewrite HA in Hin; injection Hin as <-; exact H1|].
  destruct (String.eqb_spec k b) as [->|]; [rewrite HB in Hin; injection Hin as <-; exact H2|reflexivity].
Qed.

Ltac lit := apply safe_obj; [exact (fm_null _ _ HFm)|exact tok_fresh|reflexivity|reflexivity|reflexivity].
Ltac rest := split; [try discriminate|split; [try contradiction; try discriminate|split; [try contradiction|split; [try discriminate|
  split; [try (apply no_struct; [discriminate|reflexivity])|intros j HI HB HW HV; cbn [unwrap] in HV; inversion HV; subst; clear HV]]]]].
Ltac one_in := first [now left|now right; left].
Lemma body_step u : accepts_type items wf_meta sets u -> post (fits u) (body items u).
Proof.
  assert (FN := fm_null _ _ HFm).
  induction u as [| | | | | | | |i|i|k|t IH|t IH|t IH|n t IH|ts|k IHk v IHv|t IHt e IHe|t IH|t IH| | | | |t IHt e IHe|n t IH| | |t IH|t IH|i cs ts]; intros HR; cbn [body accepts_type] in *; try contradiction.
  all: cbn [Derivation.post].
  - split; [unfold type_schema; lit|]. rest; [reflexivity|now left|]. now rewrite valid_type_schema.
  - split; [unfold type_schema; lit|]. rest. now rewrite valid_type_schema.
  - split; [now apply safe_null_schema|]. rest; [reflexivity|]. now rewrite valid_type_schema.
  - split; [unfold char_schema; lit|]. rest; [right; now left|]. rewrite valid_char. now apply Z.eqb_eq.
  - split; [unfold formatted; lit|]. rest. rewrite valid_formatted. apply andb_true_intro. split; [reflexivity|apply HNum].
  - split; [unfold formatted; lit|]. rest. rewrite valid_formatted. apply andb_true_intro. split; [reflexivity|apply HNum].
  - split; [apply safe_true|]. rest. reflexivity.
  - split; [unfold type_schema; lit|]. rest. now rewrite valid_type_schema.
  - split; [now apply (safe_int text_ok)|]. rest; [right; right; eauto|now intros ? [= <-]|]. now apply int_accepts.
  - intros s (_ & _ & _ & HS & _). rewrite (HS i eq_refl). split; [now apply (safe_nonzero text_ok)|]. rest. now apply nonzero_accepts.
  - split; [now apply (safe_text text_ok)|]. rest; rewrite valid_text.
    + pose proof (fm_text _ _ HFm k) as HF. destruct k; try congruence; apply HF; assumption.
    + apply existsb_exists. exists s. split; [assumption|apply String.eqb_refl].
  - intros s [(HRt & HN & HK) _]. split; [now apply safe_allow_null|]. rest.
    + now apply (allow_null_accepts E tok).
    + apply allow_null_mono. apply HK; [|assumption]. apply HW; [exact HRt|reflexivity|lia|exact HI].
  - intros s HA. split; [unfold seq_schema; lit|]. rest. unfold seq_schema. rewrite valid_items. eapply elems_accept; eauto.
  - intros s HA. split; [unfold set_schema; lit|]. rest. rewrite valid_set_schema. apply andb_true_intro. split; [|eapply elems_accept; eauto].
    destruct HI as [_ HI]. specialize (HI HR). cbn [no_repeats] in HI. now apply andb_prop in HI.
  - destruct n as [|n]; cbn [Derivation.post].
    + split; [unfold empty_array_schema; lit|]. rest. rewrite valid_empty_array. now destruct l.
    + intros s HA. split; [unfold array_schema; lit|]. rest. rewrite valid_array. apply andb_true_intro. split; [|eapply elems_accept; eauto]. now apply Nat.eqb_eq.
  - apply subs_post. intros ss HA. cbn [Derivation.post]. split; [unfold tuple_schema; lit|]. rest. rewrite valid_tuple_schema.
    eapply tuple_accept; eauto. intros t x HRt Hx. apply HB; [exact HRt|now apply depth_elem|eapply input_elem; eauto].
  - intros ks ([(HRk & HNk & HKk) _] & HKs & HKf & _) vs [(HRv & HNv & HKv) _] d _. split; [now apply (safe_map text_ok)|].
    split; [discriminate|]. split; [contradiction|]. split; [contradiction|]. split; [discriminate|]. split.
    { split; [intros (? & ? & ? & ? & ? & HX & _); discriminate HX|]. intros k' t' [= <- <-] HS. rewrite (HKs HS). exists vs. split; [reflexivity|]. apply (sf_false _ _ _ HNv). }
    intros j HI HB HW HV. cbn [unwrap] in HV. inversion HV; subst; clear HV. apply (map_schema_spec E (decimal_digits_signed E HDp)). exists o. split; [reflexivity|].
    intros n x Hx. split.
    + apply HKv; [|eauto]. apply HB; [exact HRv|eapply depth_value; eauto|eapply input_value; eauto].
    + right. destruct (key_alternatives ks (s_path S) d (HKf HR)) as (m & -> & HAl & HRs). exists m. rewrite HAl, HRs. split; [now left|].
      match goal with H : forall n x, In (n, x) o -> reads_key _ _ |- _ => destruct (key_input k n HR (H _ _ Hx)) as (j & K1 & K2 & K3 & K4) end.
      apply (key_admitted E HDp m j); [|exact K1]. apply HKk; [|exact K2]. apply HB; [exact HRk| |now apply input_leaf].
      eapply Nat.le_lt_trans; [apply (depth_leaf j x); auto|eapply depth_value; eauto].
  - intros s [(HRt & HNt & HKt) _] s' [(HRe & HNe & HKe) _]. split.
    { unfold result_schema. apply safe_subs; auto. repeat (apply Forall_cons; [now apply (safe_required_props text_ok)|]). apply Forall_nil. }
    rest; unfold result_schema.
    + apply one_of_first; [apply required_props_one|intros w [<-|[]]; now apply one_prop]. apply HKt; [|assumption].
      apply HB; [exact HRt|apply (depth_value _ "Ok"); now left|eapply input_value; [exact HI|now left]].
    + rewrite one_of_skip by now apply one_prop. apply one_of_first; [apply required_props_one|intros w []]. apply HKe; [|assumption].
      apply HB; [exact HRe|apply (depth_value _ "Err"); now left|eapply input_value; [exact HI|now left]].
  - intros s [(HRt & HNt & HKt) _] s' [(HRe & HNe & HKe) _]. split.
    { unfold bound_schema. apply safe_subs; auto. repeat (apply Forall_cons; [now apply (safe_required_props text_ok)|]). apply Forall_cons; [now apply safe_const|apply Forall_nil]. }
    rest; unfold bound_schema.
    + rewrite one_of_skip by apply required_props_string. rewrite one_of_skip by apply required_props_string.
      apply one_of_first; [now rewrite valid_string_const|]. intros w [].
    + match goal with H : _ \/ _ |- _ => destruct H as [->| ->] end.
      * apply one_of_first; [apply required_props_one|intros w [<-|[<-|[]]]; [now apply one_prop|now rewrite valid_string_const]]. apply HKt; [|assumption].
        apply HB; [exact HRt|apply (depth_value _ "Included"); now left|eapply input_value; [exact HI|now left]].
      * rewrite one_of_skip by now apply one_prop. apply one_of_first; [apply required_props_one|intros w [<-|[]]; now rewrite valid_string_const]. apply HKe; [|assumption].
        apply HB; [exact HRe|apply (depth_value _ "Excluded"); now left|eapply input_value; [exact HI|now left]].
  - intros s [(HRt & HNt & HKt) _]. split; [unfold range_schema; now apply (safe_required_props text_ok)|]. rest. unfold range_schema.
    eapply two_props; eauto; [discriminate|apply sorted_NoDup; eapply input_sorted; eauto| |].
    + apply HKt; [|assumption]. apply HB; [exact HRt|eapply depth_value; eapply mget_In; eauto|eapply input_value; [exact HI|eapply mget_In; eauto]].
    + apply HKt; [|assumption]. apply HB; [exact HRt|eapply depth_value; eapply mget_In; eauto|eapply input_value; [exact HI|eapply mget_In; eauto]].
  - intros a (_ & _ & _ & HA & _) b (_ & _ & _ & HB' & _). rewrite (HA _ eq_refl), (HB' _ eq_refl). split; [now apply (safe_required_props text_ok)|]. rest.
    eapply two_props; eauto; [discriminate|apply sorted_NoDup; eapply input_sorted; eauto|now apply int_accepts|now apply int_accepts].
  - intros a (_ & _ & _ & HA & _) b (_ & _ & _ & HB' & _). rewrite (HA _ eq_refl), (HB' _ eq_refl). split; [now apply (safe_required_props text_ok)|]. rest.
    eapply two_props; eauto; [discriminate|apply sorted_NoDup; eapply input_sorted; eauto|now apply int_accepts|now apply int_accepts].
  - intros s [(HRt & HNt & HKt) _] s' [(HRe & HNe & HKe) _]. split.
    { unfold either_schema. rewrite !either_external. apply safe_subs; auto. repeat (apply Forall_cons; [now apply (safe_external text_ok)|]). apply Forall_nil. }
    rest; unfold either_schema; rewrite !either_external.
    + apply one_of_first; [apply external_accepts|intros w [<-|[]]; now apply external_other]. apply HKt; [|assumption].
      apply HB; [exact HRt|apply (depth_value _ "Left"); now left|eapply input_value; [exact HI|now left]].
    + rewrite one_of_skip by now apply external_other. apply one_of_first; [apply external_accepts|intros w []]. apply HKe; [|assumption].
      apply HB; [exact HRe|apply (depth_value _ "Right"); now left|eapply input_value; [exact HI|now left]].
  - intros s HA. split; [unfold array_vec_schema; lit|]. rest. rewrite valid_array_vec. apply andb_true_intro. split; [now apply Nat.leb_le|eapply elems_accept; eauto].
  - rewrite HSt. intros s HA. split; [unfold bytes1_schema; apply safe_plain; [exact FN|reflexivity|reflexivity|reflexivity|reflexivity|now apply fresh_mk]|]. rest; rewrite valid_bytes1.
    + eapply elems_accept; eauto.
    + reflexivity.
  - split; [unfold time_delta_schema; lit|]. rest. now apply delta_accepts.
  - apply (Derivation.post_weak S seen A C (fits t)); [|now apply IH]. intros c (HN & _ & H3 & H4 & _ & H6 & HK). split; [exact HN|]. split; [discriminate|].
    split; [exact H3|]. split; [exact H4|]. split; [discriminate|]. split; [|exact HK]. split; [exact (proj1 H6)|discriminate].
  - unfold decl_prog. rewrite HSt. destruct HR as [HM HD]. apply data_post; [exact HD|]. intros c (HN & HSd & HK). cbn [Derivation.post].
    split; [now apply (safe_insert_all E)|].
    split; [discriminate|]. split; [contradiction|]. split; [contradiction|]. split; [discriminate|]. split.
    { split; [|discriminate]. intros (i' & cs' & ts' & def & fs & HX & H1 & H2 & H3). cbn [unwrap] in HX. injection HX as <- <- <-. destruct (HSd def fs H1 H2) as (m & -> & K).
      cbn [unwrap]. destruct (form_meta (TAdt i cs ts) (d_meta (it_decl (items i) cs ts)) m HM) as (m' & -> & HO); [eapply acc_open; eauto|eauto]. }
    intros j HI HB HW HV. cbn [unwrap] in HV. inversion HV; subst. rewrite (valid_insert_all E tok) by (auto; apply HN). now apply HK.
Qed.
End Step.
