(** The "properties" and "required" of the schema of a derived struct, for both contracts. *)
From Coq Require Import String Ascii List ZArith Bool Lia.
From Verif Require Import Json JsonFacts Utf8 Encoding EncodingProofs SchemaApi Transform Validate ValidateFacts ValidateKw Pointer
  PointerProofs Private PrivateProps PrivateNull PrivateTag ShapeFacts PrivateFlatten PrivateForFlatten Generate GenerateSpec
  GenerateProofs GenerateDoc SerValue Types TypesShape Serde SerdeFacts Derivation Properties_Root SoundBase SoundStruct SoundTypes
  SoundAdt SoundEnum Sound.
Import ListNotations.
Open Scope string_scope.
Open Scope list_scope.

(** ** Specification *)
(** Does the field take part in the contract, under which name? *)
Definition takes_part {X} (c : contract) (f : field X) : Prop :=
  match c with Serialize => f_skip_ser f = false | Deserialize => f_skip_de f = false end.
Definition key {X} (c : contract) (f : field X) : string := match c with Serialize => f_ser f | Deserialize => f_de f end.
(** A flattened field for which the schema lets all properties be absent *)
Definition loose {X} (f : field X) : bool := is_option (f_ty f) && negb (f_required f).

Section Spec.
Context {X : Type}.
Variable items : nat -> item X.
Variable c : contract.

(** The properties of a struct *)
Inductive has_key : rty -> string -> Prop :=
| HasKey n cs ts def fs f k :
    d_data (it_decl (items n) cs ts) = DStruct def (Struct fs) -> In f fs -> takes_part c f ->
    field_has f k -> has_key (TAdt n cs ts) k
with field_has : field X -> string -> Prop :=
| HasName f : f_flatten f = false -> field_has f (key c f)
| HasFlat f k : f_flatten f = true -> has_key (strip_option (f_ty f)) k -> field_has f k.

(** The properties of which [must def f] says they are mandatory, [def] telling if the struct has a
    default *)
Variable must : bool -> field X -> Prop.
Inductive needs_key : rty -> string -> Prop :=
| NeedsKey n cs ts def fs f k :
    d_data (it_decl (items n) cs ts) = DStruct def (Struct fs) -> In f fs -> takes_part c f ->
    field_needs def f k -> needs_key (TAdt n cs ts) k
with field_needs : bool -> field X -> string -> Prop :=
| NeedsName def f : f_flatten f = false -> must def f -> field_needs def f (key c f)
| NeedsFlat def f k : f_flatten f = true -> loose f = false -> needs_key (strip_option (f_ty f)) k -> field_needs def f k.
End Spec.

(** [u] is [t] or is flattened into it *)
Inductive within_flat {X} (items : nat -> item X) (c : contract) (t : rty) : rty -> Prop :=
| WithinSelf : within_flat items c t t
| WithinFlat i cs ts def fs f : within_flat items c t (TAdt i cs ts) ->
    d_data (it_decl (items i) cs ts) = DStruct def (Struct fs) -> In f fs -> takes_part c f -> f_flatten f = true ->
    within_flat items c t (strip_option (f_ty f)).
Lemma within_trans {X} (items : nat -> item X) c t u w : within_flat items c t u -> within_flat items c u w -> within_flat items c t w.
Proof. intros H H'. induction H' as [|i cs ts def fs f _ IH HD Hf HT HF]; [exact H|eapply WithinFlat; eauto]. Qed.
(** No two fields have a property of the same name *)
Definition distinct_names {X} (items : nat -> item X) (c : contract) (fs : list (field X)) : Prop := forall l1 f l2 g l3,
  fs = l1 ++ f :: l2 ++ g :: l3 -> takes_part c f -> takes_part c g -> forall k, field_has items c f k -> ~ field_has items c g k.
(** The same in a struct and in all that are flattened into it *)
Definition all_distinct {X} (items : nat -> item X) (c : contract) (t : rty) : Prop := forall i cs ts def fs,
  within_flat items c t (TAdt i cs ts) -> d_data (it_decl (items i) cs ts) = DStruct def (Struct fs) -> distinct_names items c fs.

Lemma distinct_snoc {X} (items : nat -> item X) c fs f : distinct_names items c (fs ++ [f]) ->
  distinct_names items c fs /\ (takes_part c f -> forall g k, In g fs -> takes_part c g -> field_has items c g k -> ~ field_has items c f k).
Proof.
  intros H. split.
  - intros l1 g l2 g' l3 ->. apply (H l1 g l2 g' (l3 ++ [f])). now rewrite <- !app_assoc, <- app_comm_cons, <- !app_assoc.
  - intros HT g k Hg HTg. apply in_split in Hg as (l1 & l2 & ->). apply (H l1 g l2 f []); auto. now rewrite <- app_assoc.
Qed.
Scheme needs_key_mut := Minimality for needs_key Sort Prop with field_needs_mut := Minimality for field_needs Sort Prop.
Lemma field_needs_has {X} (items : nat -> item X) c must def f k : field_needs items c must def f k -> field_has items c f k.
Proof.
  apply (field_needs_mut X items c must (fun t k => has_key items c t k) (fun _ f k => field_has items c f k)).
  - intros. econstructor; eauto.
  - intros. now apply HasName.
  - intros. now apply HasFlat.
Qed.

(** What the generated schema takes to be mandatory *)
Definition schema_must {X} (c : contract) (def : bool) (f : field X) : Prop :=
  match c with
  | Serialize => f_skip_if f = None
  | Deserialize => def = false /\ f_default f = false /\ (is_option (f_ty f) = false \/ f_required f = true)
  end.

Lemma is_optional_must {X} c def (f : field X) : is_optional def c f = false <-> schema_must c def f.
Proof.
  unfold is_optional, schema_must. destruct c, def, (f_default f), (f_skip_if f), (f_required f), (is_option (f_ty f)); cbn; intuition congruence.
Qed.
Lemma included_takes {X} c (f : field X) : included (f_skip_de f) (f_skip_ser f) c = true <-> takes_part c f.
Proof. unfold included, takes_part. destruct c; rewrite negb_true_iff; tauto. Qed.
Lemma name_key {X} c (f : field X) : name_for c (f_ser f) (f_de f) = key c f.
Proof. now destruct c. Qed.

Definition plain_meta (l : list (string * json)) : Prop := forall k x, In (k, x) l -> annotation k.

(** ** The schema of a struct *)
Section Struct.
Context {X St : Type}.
Variable items : nat -> item X.
Variable c : contract.
Notation has := (field_has items c).
Notation needs := (field_needs items c (schema_must c)).

Record rq (def : bool) (fs : list (field X)) (m : map_t) : Prop := {
  rq_shape : object_shape m;
  rq_then : mget "then" m = None;
  rq_else : mget "else" m = None;
  rq_sorted : sorted_keys (map fst m) = true;
  rq_psorted : sorted_keys (map fst (props_of m)) = true;
  rq_props : forall k, mget k (props_of m) <> None <-> exists f, In f fs /\ takes_part c f /\ has f k;
  rq_needs : forall k, In (JStr k) (required_of m) <-> exists f, In f fs /\ takes_part c f /\ needs def f k;
  rq_strings : forall x, In x (required_of m) -> exists k, x = JStr k;
  rq_once : distinct_names items c fs -> (forall f, In f fs -> takes_part c f -> f_flatten f = true -> all_distinct items c (strip_option (f_ty f))) ->
    NoDup (required_of m);
  (* what is inserted for a field stays, unless a later field has a property of that name *)
  rq_kept : forall l1 f l2, fs = l1 ++ f :: l2 -> takes_part c f -> f_flatten f = false ->
    (forall g, In g l2 -> takes_part c g -> ~ has g (key c f)) ->
    exists s, mget (key c f) (props_of m) = Some (insert_default def f (field_mutators f s)) }.

Lemma snoc_split (fs l1 l2 : list (field X)) f g : fs ++ [f] = l1 ++ g :: l2 ->
  (l1 = fs /\ g = f /\ l2 = []) \/ exists l3, l2 = l3 ++ [f] /\ fs = l1 ++ g :: l3.
Proof.
  intros H. destruct l2 as [|x l2 _] using rev_ind.
  - apply app_inj_tail in H as [-> ->]. now left.
  - right. exists l2. rewrite app_comm_cons, app_assoc in H. apply app_inj_tail in H as [-> ->]. now split.
Qed.

Lemma rq_get def fs m m' : rq def fs m -> sorted_keys (map fst m') = true -> (forall k, In k kws \/ In k ctx -> mget k m' = mget k m) -> rq def fs m'.
Proof.
  intros [A1 A2 A3 A4 A5 A6 A7 A8 A9 A10] HS HG.
  assert (P : props_of m' = props_of m) by (unfold props_of; rewrite HG; [reflexivity|left; in_names]).
  assert (Rq : required_of m' = required_of m) by (unfold required_of; rewrite HG; [reflexivity|left; in_names]).
  split; auto.
  - destruct A1 as (K1 & K2 & K3 & K4). split; [|split; [|split]].
    + intros k Hk HN. rewrite HG in HN by auto. auto.
    + rewrite HG by (left; in_names). auto.
    + rewrite HG by (left; in_names). auto.
    + rewrite HG by (left; in_names). auto.
  - rewrite HG by (right; in_names). auto.
  - rewrite HG by (right; in_names). auto.
  - now rewrite P.
  - now rewrite P.
  - now rewrite Rq.
  - now rewrite Rq.
  - now rewrite Rq.
  - now rewrite P.
Qed.

Lemma rq_annotate def fs k x m : annotation k -> rq def fs m -> rq def fs (mset k x m).
Proof.
  intros A H. apply (rq_get def fs m); auto.
  - apply sorted_mset, (rq_sorted _ _ _ H).
  - intros k' Hk. rewrite mget_mset. destruct (String.eqb_spec k' k) as [->|]; [|reflexivity]. destruct A. tauto.
Qed.
Lemma rq_meta def fs l : forall m, plain_meta l -> rq def fs m -> exists m', insert_all l (JObj m) = JObj m' /\ rq def fs m'.
Proof.
  induction l as [|[k x] l IH]; intros m W H; [now exists m|]. rewrite insert_all_cons.
  unfold insert. cbn [fst snd ensure_obj ensure_object]. apply IH.
  - intros k' x' Hin. apply (W k' x'). now right.
  - apply rq_annotate; [|exact H]. apply (W k x). now left.
Qed.

Lemma rq_start def (deny : bool) : exists m,
  obj ((("type", JStr "object") : string * json) :: if deny then [("additionalProperties", JBool false)] else []) = JObj m /\ rq def [] m.
Proof.
  eexists. split; [reflexivity|]. split.
  - destruct deny; (split; [|split; [|split]]); try (right; reflexivity); try (left; reflexivity);
      intros k Hk HN; apply mk_keys in HN; cbn in HN; repeat (destruct HN as [<-|HN]; [in_names|]); destruct HN.
  - destruct deny; reflexivity.
  - destruct deny; reflexivity.
  - apply sorted_mk.
  - destruct deny; reflexivity.
  - intros k. split; [destruct deny; cbn; congruence|]. intros (f & [] & _).
  - intros k. split; [destruct deny; intros []|]. intros (f & [] & _).
  - destruct deny; intros x [].
  - intros _ _. destruct deny; constructor.
  - intros [|g l1] g0 l2 HE; discriminate HE.
Qed.

Lemma rq_skip def fs m f : ~ takes_part c f -> rq def fs m -> rq def (fs ++ [f]) m.
Proof.
  intros HN [A1 A2 A3 A4 A5 A6 A7 A8 A9 A10]. split; auto.
  - intros k. rewrite A6. split; intros (g & Hg & H1 & H2).
    + exists g. rewrite in_app_iff. auto.
    + apply in_app_iff in Hg as [Hg|[<-|[]]]; [eauto|contradiction].
  - intros k. rewrite A7. split; intros (g & Hg & H1 & H2).
    + exists g. rewrite in_app_iff. auto.
    + apply in_app_iff in Hg as [Hg|[<-|[]]]; [eauto|contradiction].
  - intros HD HO. apply A9; [now apply distinct_snoc in HD|]. intros g Hg. apply HO, in_or_app. now left.
  - intros l1 g l2 HE HT HF HL. apply snoc_split in HE as [(-> & -> & ->)|(l3 & -> & ->)]; [contradiction|].
    apply (A10 l1 g l3); auto. intros g' Hg'. apply HL, in_or_app. now left.
Qed.

Lemma app_ex (P : field X -> Prop) fs f : (exists g, In g (fs ++ [f]) /\ P g) <-> (exists g, In g fs /\ P g) \/ P f.
Proof.
  split.
  - intros (g & Hg & H). apply in_app_iff in Hg as [Hg|[<-|[]]]; [left; eauto|now right].
  - intros [(g & Hg & H)|H]; [exists g|exists f]; rewrite in_app_iff; cbn; auto.
Qed.

(** What a field adds to the names that are required, if no field before it has one of them *)
Lemma rq_more def fs m f more : rq def fs m -> takes_part c f -> NoDup more -> (forall x, In x more -> exists k, x = JStr k /\ has f k) ->
  distinct_names items c (fs ++ [f]) ->
  (forall g, In g (fs ++ [f]) -> takes_part c g -> f_flatten g = true -> all_distinct items c (strip_option (f_ty g))) ->
  NoDup (required_of m ++ more).
Proof.
  intros H HT HM HX HD HO. apply distinct_snoc in HD as [HD1 HD2].
  assert (HN : NoDup (required_of m)) by (apply (rq_once _ _ _ H HD1); intros g Hg; apply HO, in_or_app; now left).
  assert (HJ : forall x, In x (required_of m) -> ~ In x more).
  { intros x H1 H2. apply HX in H2 as (k & -> & Hk). apply (rq_needs _ _ _ H) in H1 as (g & Hg & HTg & Hn). apply field_needs_has in Hn.
    now apply (HD2 HT g k Hg HTg Hn). }
  clear -HN HM HJ. induction (required_of m) as [|x l IH]; cbn [app]; [exact HM|]. inversion HN as [|? ? H1 H2]; subst.
  constructor; [|apply IH; [exact H2|intros y Hy; apply HJ; now right]]. intros H. apply in_app_iff in H as [H|H]; [now apply H1|]. now apply (HJ x (or_introl eq_refl)).
Qed.

Lemma rq_field def fs m f s : rq def fs m -> takes_part c f -> f_flatten f = false ->
  exists m', insert_object_property (JObj m) (key c f) (is_optional def c f) (insert_default def f (field_mutators f s)) = JObj m' /\ rq def (fs ++ [f]) m'.
Proof.
  set (sub := insert_default def f (field_mutators f s)).
  intros H HT HF. pose proof H as [A1 A2 A3 A4 A5 A6 A7 A8 A9 A10]. destruct A1 as (K1 & K2 & K3 & K4).
  set (opt := is_optional def c f).
  destruct (insert_property_get m (key c f) opt sub K3 K4) as (m' & HE & G). exists m'. split; [exact HE|].
  assert (P : props_of m' = mset (key c f) sub (props_of m)) by (unfold props_of at 1; now rewrite G).
  assert (Rq : required_of m' = if opt then required_of m else required_of m ++ [JStr (key c f)]).
  { unfold required_of at 1. rewrite G. cbn [String.eqb Ascii.eqb Bool.eqb andb]. destruct opt; reflexivity. }
  assert (HH : forall k, has f k <-> k = key c f).
  { intros k. split; [intros HX; inversion HX; subst; congruence|intros ->; now constructor]. }
  assert (HNd : forall k, needs def f k <-> k = key c f /\ opt = false).
  { intros k. unfold opt. rewrite is_optional_must. split; [intros HX; inversion HX; subst; [auto|congruence]|intros [-> HM]; now constructor]. }
  split.
  - split; [|split; [|split]].
    + intros k Hk. rewrite G. destruct (String.eqb_spec k "properties") as [->|]; [intros _; in_names|].
      destruct (String.eqb k "required" && negb opt) eqn:ER; [|now apply K1].
      apply andb_true_iff in ER as [ER _]. apply String.eqb_eq in ER as ->. intros _. in_names.
    + rewrite G. exact K2.
    + rewrite G. cbn [String.eqb Ascii.eqb Bool.eqb]. right. eauto.
    + rewrite G. cbn [String.eqb Ascii.eqb Bool.eqb]. destruct (negb opt); cbn [andb]; [right; eauto|exact K4].
  - rewrite G. exact A2.
  - rewrite G. exact A3.
  - eapply insert_property_sorted; eauto.
  - rewrite P. now apply sorted_mset.
  - intros k. rewrite app_ex, <- A6, P, mget_mset, HH. destruct (String.eqb_spec k (key c f)) as [->|HN]; intuition congruence.
  - intros k. rewrite app_ex, <- A7, Rq, HNd. destruct opt; [intuition congruence|]. rewrite in_app_iff. cbn [In].
    split; [intros [|[[= ->]|[]]]; auto|intros [|(_ & -> & _)]; auto].
  - rewrite Rq. destruct opt; [exact A8|]. intros x Hx. apply in_app_iff in Hx as [Hx|[<-|[]]]; [auto|eauto].
  - intros HD HO. rewrite Rq. destruct opt.
    + apply A9; [now apply distinct_snoc in HD|]. intros g Hg. apply HO, in_or_app. now left.
    + apply (rq_more def fs m f [JStr (key c f)]); auto; [repeat constructor; intros []|].
      intros x [<-|[]]. exists (key c f). split; [reflexivity|now apply HH].
  - intros l1 g l2 HEQ HTg HFg HL. rewrite P, mget_mset. apply snoc_split in HEQ as [(-> & -> & ->)|(l3 & -> & ->)].
    + rewrite String.eqb_refl. now exists s.
    + destruct (String.eqb_spec (key c g) (key c f)) as [E|_].
      * elim (HL f); [apply in_or_app; right; now left|exact HT|]. now apply HH.
      * apply (A10 l1 g l3); auto. intros g' Hg'. apply HL, in_or_app. now left.
Qed.

Lemma rq_flat def fs m f i cs ts def' fs' d :
  rq def fs m -> takes_part c f -> f_flatten f = true ->
  strip_option (f_ty f) = TAdt i cs ts -> d_data (it_decl (items i) cs ts) = DStruct def' (Struct fs') ->
  rq def' fs' d ->
  exists m', flatten (JObj m) (for_flatten (JObj d) (is_option (f_ty f) && negb (f_required f))) = JObj m' /\ rq def (fs ++ [f]) m'.
Proof.
  intros H HTk HF HT HDt H'. pose proof H as [A1 A2 A3 A4 A5 A6 A7 A8 A9 A10]. pose proof H' as [B1 B2 B3 B4 B5 B6 B7 B8 B9 B10].
  fold (loose f). set (opt := loose f).
  destruct (for_flatten_get d opt B1 B2 B3) as (d' & -> & G & SG).
  assert (HS' : object_shape d').
  { destruct B1 as (K1 & K2 & K3 & K4). split; [|split; [|split]].
    - intros k Hk HN. apply K1; [exact Hk|]. rewrite G in HN.
      destruct (opt && String.eqb k "required"); [|destruct (mget k d); [discriminate|]];
        destruct (mem k ["additionalProperties"; "unevaluatedProperties"]); cbn in HN; congruence.
    - rewrite G. cbn [mem existsb String.eqb Ascii.eqb Bool.eqb orb andb].
      rewrite andb_false_r. exact K2.
    - rewrite G. cbn [mem existsb String.eqb Ascii.eqb Bool.eqb orb andb]. rewrite andb_false_r. exact K3.
    - rewrite G. cbn [mem existsb String.eqb Ascii.eqb Bool.eqb orb andb]. rewrite andb_true_r.
      destruct opt; auto. }
  assert (P1 : props_of d' = props_of d).
  { unfold props_of. rewrite G. cbn [mem existsb String.eqb Ascii.eqb Bool.eqb orb andb]. now rewrite andb_false_r. }
  assert (R1 : required_of d' = if opt then [] else required_of d).
  { unfold required_of. rewrite G. cbn [mem existsb String.eqb Ascii.eqb Bool.eqb orb andb]. rewrite andb_true_r. now destruct opt. }
  assert (SD : sorted_keys (map fst d') = true) by (apply SG, B4).
  destruct (flatten_facts m d' A1 HS' (sorted_NoDup _ SD) A5) as (r & -> & F1 & F2 & F3 & F4 & F5 & F6).
  { now rewrite P1. }
  exists r. split; [reflexivity|].
  assert (KEEP : forall c, c <> "allOf" -> ~ In c ["oneOf"; "anyOf"] -> mget c d' = None -> mget c r = mget c m).
  { intros c0 C1 C2 HN. rewrite (F5 c0 C1 C2), HN. reflexivity. }
  assert (ND : forall c, mget c d = None -> mget c d' = None).
  { intros c0 HN. rewrite G, HN. destruct (opt && String.eqb c0 "required"); destruct (mem c0 _); reflexivity. }
  assert (HH : forall k, has f k <-> exists g, In g fs' /\ takes_part c g /\ has g k).
  { intros k. split.
    - intros HX. inversion HX as [? HX1|? ? HX1 HX2]; subst; [congruence|]. rewrite HT in HX2.
      inversion HX2 as [n0 cs0 ts0 df0 fs0 f0 k0 Y1 Y2 Y3 Y4]; subst. rewrite HDt in Y1. injection Y1 as <- <-. eauto.
    - intros (g & Hg & Ht & Hk). apply HasFlat; [exact HF|]. rewrite HT. econstructor; eauto. }
  assert (HNd : forall k, needs def f k <-> opt = false /\ exists g, In g fs' /\ takes_part c g /\ needs def' g k).
  { intros k. split.
    - intros HX. inversion HX as [? ? HX1|? ? ? HX1 HX0 HX2]; subst; [congruence|]. split; [exact HX0|]. rewrite HT in HX2.
      inversion HX2 as [n0 cs0 ts0 df0 fs0 f0 k0 Y1 Y2 Y3 Y4]; subst. rewrite HDt in Y1. injection Y1 as <- <-. eauto.
    - intros (HO & g & Hg & Ht & Hk). apply NeedsFlat; [exact HF|exact HO|]. rewrite HT. econstructor; eauto. }
  split.
  - exact F1.
  - rewrite KEEP; auto; try discriminate. intros [HX|[HX|[]]]; discriminate.
  - rewrite KEEP; auto; try discriminate. intros [HX|[HX|[]]]; discriminate.
  - apply F6, A4.
  - rewrite F2. apply sorted_mappend. exact A5.
  - intros k. rewrite app_ex, <- A6, HH, <- B6. rewrite F2, mget_mappend_NoDup by (apply sorted_NoDup; now rewrite P1). rewrite P1.
    destruct (mget k (props_of d)); intuition congruence.
  - intros k. rewrite app_ex, <- A7, HNd, <- B7, F3, in_app_iff, R1. destruct opt; cbn [In]; intuition congruence.
  - intros x Hx. rewrite F3, R1 in Hx. apply in_app_iff in Hx as [Hx|Hx]; [auto|]. destruct opt; [destruct Hx|auto].
  - intros HD HO. rewrite F3, R1. apply (rq_more def fs m f); auto; destruct opt; [constructor| |intros x []|].
    + assert (HI : In f (fs ++ [f])) by (apply in_or_app; right; now left). specialize (HO f HI HTk HF). rewrite HT in HO. apply B9.
      * apply (HO i cs ts def' fs'); [constructor|exact HDt].
      * intros g Hg HTg HFg i' cs' ts' df fs0 HW. apply HO. eapply within_trans; [|exact HW]. eapply WithinFlat; eauto. constructor.
    + intros x Hx. destruct (B8 x Hx) as (k & ->). exists k. split; [reflexivity|]. apply B7 in Hx as (g & Hg & HTg & Hn). apply field_needs_has in Hn.
      apply HH. eauto.
  - intros l1 g l2 HE HTg HFg HL. apply snoc_split in HE as [(-> & -> & ->)|(l3 & -> & ->)]; [congruence|].
    rewrite F2, mget_mappend_NoDup by (apply sorted_NoDup; now rewrite P1). rewrite P1. destruct (mget (key c g) (props_of d)) eqn:EK.
    + elim (HL f); [apply in_or_app; right; now left|exact HTk|]. apply HH. apply B6. congruence.
    + apply (A10 l1 g l3); auto. intros g' Hg'. apply HL, in_or_app. now left.
Qed.
End Struct.
