(** Schemas the implementations produce accept the JSON of the type's values: basic facts. *)
From Coq Require Import String Ascii List ZArith Bool Lia.
From Verif Require Import Json JsonFacts Utf8 SchemaApi Validate ValidateFacts ValidateKw Pointer Private PrivateProps
  PrivateNull PrivateTag ShapeFacts PrivateFlatten PrivateForFlatten Generate SerValue SerValueProofs Types TypesShape
  Serde SerdeFacts Derivation ValidationAttrs ValidationProofs ValidationField Properties_Types.
Import ListNotations.
Open Scope string_scope.
Open Scope list_scope.

Section Base.
Variable E : env.
Hypothesis format_null : forall f, e_fmt E f JNull = true.
(** A key that no implementation uses (the first segment of the definitions path) *)
Variable tok : string.
Definition used : list string := kws ++ ctx ++ ["default"; "readOnly"; "writeOnly"].
Hypothesis tok_fresh : ~ In tok used.
Notation ok_ := (valid D2020 E).

(** What a schema must satisfy for [allow_null] to add null to it, and for the definitions to find
    their place *)
Record safe (s : json) : Prop := {
  sf_schema : is_schema s = true;
  sf_false : s <> JBool false;
  sf_null : has_type "null" s = true -> ok_ s JNull = true;
  sf_any : forall a, s = JObj [("anyOf", JArr a)] -> existsb is_null_schema a = true -> ok_ s JNull = true;
  sf_plain : forall m, s = JObj m -> contains_immediate_subschema m = false ->
     mget "const" m <> Some JNull /\ (mget "const" m <> None -> mget "enum" m = None)
     /\ ok_ (JObj (other_keywords m)) JNull = true;
  sf_room : s_get tok s = None }.

Definition annotation (k : string) : Prop := ~ In k kws /\ ~ In k ctx.
Definition wf_meta (l : list (string * json)) : Prop := forall k x, In (k, x) l -> annotation k /\ k <> tok.

Lemma in_used_neq k : In k used -> tok <> k.
Proof. intros H ->. now apply tok_fresh. Qed.

Lemma mk_keys {A} (l : list (string * A)) k : mget k (mk l) <> None -> In k (map fst l).
Proof.
  intros H. apply mhas_In in H. unfold mk, mappend in H.
  assert (G : forall m, In k (map fst (fold_left (fun m (kv : string * A) => mset (fst kv) (snd kv) m) l m)) ->
              In k (map fst l) \/ In k (map fst m)).
  { clear H. induction l as [|[k' x] l IH]; intros m Hm; [now right|]. cbn [fold_left fst snd] in Hm.
    apply IH in Hm as [Hm|Hm]; [left; now right|]. cbn [map fst].
    apply mhas_In in Hm. rewrite mget_mset in Hm. destruct (String.eqb_spec k k') as [->|]; [left; now left|]. right. now apply mhas_In. }
  apply G in H as [H|[]]. exact H.
Qed.

Lemma fresh_mk (l : map_t) : forallb (fun k => existsb (String.eqb k) used) (map fst l) = true -> mget tok (mk l) = None.
Proof.
  intros H. destruct (mget tok (mk l)) eqn:EM; [|reflexivity]. exfalso. apply tok_fresh.
  assert (HI : In tok (map fst l)) by (apply mk_keys; congruence).
  rewrite forallb_forall in H. apply H, existsb_exists in HI as (k & Hk & HE). apply String.eqb_eq in HE. now subst.
Qed.

Lemma fresh_mset k x (m : map_t) : In k used -> mget tok m = None -> mget tok (mset k x m) = None.
Proof. intros H HM. rewrite mget_mset. destruct (String.eqb_spec tok k) as [<-|]; [contradiction|exact HM]. Qed.

Lemma imm_false m : (forall k, In k immediate_keys -> mget k m = None) <-> contains_immediate_subschema m = false.
Proof.
  unfold contains_immediate_subschema. split.
  - intros H. destruct (existsb _ _) eqn:EE; [|reflexivity].
    apply existsb_exists in EE as (k & Hk & HM). unfold mhas in HM. now rewrite (H k Hk) in HM.
  - intros H k Hk. destruct (mget k m) eqn:EM; [|reflexivity]. exfalso. apply Bool.not_true_iff_false in H. apply H, existsb_exists.
    exists k. unfold mhas. now rewrite EM.
Qed.

Lemma safe_plain m : contains_immediate_subschema m = false -> mget "const" m = None -> mget "not" m = None ->
  has_type "null" (JObj m) = false -> mget tok m = None -> safe (JObj m).
Proof.
  intros HI HC HN HT HR. split; auto; try discriminate.
  - congruence.
  - intros a [= ->]. discriminate HI.
  - intros m' [= <-] _. rewrite HC. repeat split; try congruence. now apply other_accepts_null.
Qed.

Lemma safe_true : safe (JBool true).
Proof. split; try discriminate; auto. Qed.

Lemma safe_const n : safe (obj [("type", JStr "string"); ("const", JStr n)]).
Proof.
  split; try discriminate; auto.
  - intros m [= <-] _. repeat split; try discriminate.
  - cbn [s_get obj]. now apply fresh_mk.
Qed.

Lemma safe_null_schema : safe (type_schema "null").
Proof.
  split; try discriminate; auto.
  - intros m [= <-] _. repeat split; try discriminate.
  - now apply (fresh_mk [("type", JStr "null")]).
Qed.

Lemma safe_subs k l : k = "oneOf" \/ k = "anyOf" -> Forall safe l -> safe (obj [(k, JArr l)]).
Proof.
  intros HK HL. split; try discriminate; auto.
  - destruct HK as [->| ->]; discriminate.
  - intros a HE H. destruct HK as [->| ->]; [discriminate|]. injection HE as <-.
    rewrite Forall_forall in HL.
    apply existsb_exists in H as (x & Hx & H). rewrite valid_anyOf. apply existsb_exists. exists x. split; [exact Hx|].
    apply HL; [exact Hx|]. unfold is_null_schema in H. now apply andb_prop in H.
  - intros m [= <-]. destruct HK as [->| ->]; discriminate.
  - cbn [s_get obj]. apply (fresh_mk [(k, JArr l)]). destruct HK as [->| ->]; reflexivity.
Qed.

Lemma safe_ref r : safe (new_ref r).
Proof.
  split; try discriminate; auto.
  - intros m [= <-]. discriminate.
  - unfold new_ref. cbn [s_get mget]. destruct (String.eqb_spec tok "$ref") as [HE|]; [|reflexivity].
    exfalso. apply tok_fresh. rewrite HE. in_names.
Qed.

Lemma other_mset k x m : annotation k -> forall v, ok_ (JObj (other_keywords (mset k x m))) v = ok_ (JObj (other_keywords m)) v.
Proof.
  intros [A1 A2] v. rewrite <- (valid_annotation E k x (other_keywords m) v A1 A2). apply valid_lookup. intros c.
  unfold other_keywords. rewrite !mget_mdel, !mget_mset, !mget_mdel.
  destruct (String.eqb_spec c "const") as [->|]; [destruct (String.eqb_spec "const" k) as [<-|]; [exfalso; apply A1; in_names|reflexivity]|].
  destruct (String.eqb_spec c "enum") as [->|]; [destruct (String.eqb_spec "enum" k) as [<-|]; [exfalso; apply A1; in_names|reflexivity]|].
  destruct (String.eqb_spec c "type") as [->|]; [destruct (String.eqb_spec "type" k) as [<-|]; [exfalso; apply A1; in_names|reflexivity]|].
  reflexivity.
Qed.

Lemma ann_neq k c : annotation k -> In c kws -> c <> k.
Proof. intros [A _] H ->. contradiction. Qed.
Lemma ann_neq_ctx k c : annotation k -> In c ctx -> c <> k.
Proof. intros [_ A] H ->. contradiction. Qed.

Lemma mget_ann k x (m : map_t) c : annotation k -> In c kws -> mget c (mset k x m) = mget c m.
Proof. intros A H. rewrite mget_mset. destruct (String.eqb_spec c k) as [HE|]; [|reflexivity]. exfalso. now apply (ann_neq k c). Qed.

Lemma imm_kws k : In k immediate_keys -> In k kws.
Proof. intros H. cbn in H. repeat (destruct H as [<-|H]; [in_names|]). destruct H. Qed.

Lemma safe_ensure s : safe s -> safe (JObj (ensure_obj s)).
Proof.
  intros H. destruct s as [|b| | | |m]; try exact H; try (now destruct H).
  destruct b; [|now destruct (sf_false _ H)]. apply safe_plain; reflexivity.
Qed.

Lemma safe_insert k x s : annotation k -> k <> tok -> safe s -> safe (insert k x s).
Proof.
  intros A T H0. pose proof (safe_ensure _ H0) as H. unfold insert. set (m := ensure_obj s) in *. clearbody m.
  split; auto; try discriminate.
  - intros HT. rewrite valid_annotation by apply A. apply (sf_null _ H). unfold has_type, s_get in *.
    rewrite (mget_ann k x m "type") in HT by (auto; in_names). exact HT.
  - intros a [= HE]. exfalso. assert (HM : mget k (mset k x m) <> None) by (rewrite mget_mset, String.eqb_refl; discriminate).
    rewrite HE in HM. cbn [mget] in HM. destruct (String.eqb_spec k "anyOf") as [->|]; [|congruence]. apply (proj1 A). in_names.
  - intros m' [= <-] HI. rewrite other_mset by exact A. rewrite !mget_ann by (auto; in_names).
    apply (sf_plain _ H m eq_refl). apply imm_false. intros c Hc. rewrite <- (mget_ann k x m c A (imm_kws c Hc)).
    now apply imm_false.
  - cbn [s_get]. rewrite mget_mset. destruct (String.eqb_spec tok k) as [HE|]; [congruence|]. apply (sf_room _ H).
Qed.

Lemma schema_insert k x s : is_schema (insert k x s) = true.
Proof. reflexivity. Qed.

Lemma insert_all_cons kv l s : insert_all (kv :: l) s = insert_all l (insert (fst kv) (snd kv) s).
Proof. reflexivity. Qed.

Lemma safe_insert_all l : forall s, wf_meta l -> safe s -> safe (insert_all l s).
Proof.
  induction l as [|[k x] l IH]; intros s W H; [exact H|]. rewrite insert_all_cons. apply IH.
  - intros k' x' Hin. apply (W k' x'). now right.
  - destruct (W k x (or_introl eq_refl)). now apply safe_insert.
Qed.

Lemma valid_insert_all l : forall s v, wf_meta l -> is_schema s = true -> ok_ (insert_all l s) v = ok_ s v.
Proof.
  induction l as [|[k x] l IH]; intros s v W H; [reflexivity|]. rewrite insert_all_cons, IH.
  - destruct (W k x (or_introl eq_refl)) as [[A1 A2] _]. now apply valid_insert.
  - intros k' x' Hin. apply (W k' x'). now right.
  - reflexivity.
Qed.

Lemma default_ann : annotation "default" /\ annotation "readOnly" /\ annotation "writeOnly".
Proof.
  repeat split; intros HH; cbn in HH; repeat (destruct HH as [HH|HH]; [discriminate|]); exact HH.
Qed.
Lemma tok_default : "default" <> tok /\ "readOnly" <> tok /\ "writeOnly" <> tok.
Proof. repeat split; intros H; apply tok_fresh; rewrite <- H; in_names. Qed.

(** A keyword that says nothing about null *)
Lemma safe_null_kw k x s : In k kws -> ~ In k ctx -> ~ In k ("type" :: "const" :: "enum" :: immediate_keys) ->
  (forall m, kw E m k x JNull = true) -> safe s -> safe (insert k x s).
Proof.
  intros HU HC HK HX H0. pose proof (safe_ensure _ H0) as H. unfold insert. set (m := ensure_obj s) in *. clearbody m.
  assert (T : k <> tok) by (intros ->; apply tok_fresh; apply in_or_app; now left).
  assert (HM : forall c, In c ("type" :: "const" :: "enum" :: immediate_keys) -> mget c (mset k x m) = mget c m).
  { intros c Hc. rewrite mget_mset. destruct (String.eqb_spec c k) as [->|]; [contradiction|reflexivity]. }
  assert (HD : forall y m', ok_ (JObj m') JNull = true -> (forall c, mget c y = mget c (mset k x m')) -> ok_ (JObj y) JNull = true).
  { intros y m' Hm Hy. rewrite (valid_lookup E y (mset k x m') JNull Hy), valid_set by exact HC. rewrite HX. cbn [andb].
    rewrite (valid_out E k) in Hm by exact HC. now apply andb_prop in Hm. }
  split; auto; try discriminate.
  - intros HT. apply (HD _ m); [|reflexivity]. apply (sf_null _ H). unfold has_type, s_get in *.
    rewrite (HM "type") in HT by (cbn; auto). exact HT.
  - intros a [= HE]. exfalso. assert (HM' : mget k (mset k x m) <> None) by (rewrite mget_mset, String.eqb_refl; discriminate).
    rewrite HE in HM'. cbn [mget] in HM'. destruct (String.eqb_spec k "anyOf") as [->|]; [|congruence]. apply HK. cbn. auto 10.
  - intros m' [= <-] HI. rewrite !HM by (cbn; auto).
    destruct (sf_plain _ H m eq_refl) as (P1 & P2 & P3).
    { apply imm_false. intros c Hc. rewrite <- (HM c) by (do 3 right; exact Hc). now apply imm_false. }
    split; [exact P1|]. split; [exact P2|]. apply (HD _ (other_keywords m)); [exact P3|].
    intros c. unfold other_keywords. rewrite ?mget_mset, !mget_mdel, ?mget_mset.
    destruct (String.eqb_spec c k) as [->|]; [|reflexivity].
    destruct (String.eqb_spec k "const") as [->|]; [exfalso; apply HK; cbn; auto|].
    destruct (String.eqb_spec k "enum") as [->|]; [exfalso; apply HK; cbn; auto|].
    destruct (String.eqb_spec k "type") as [->|]; [exfalso; apply HK; cbn; auto|reflexivity].
  - cbn [s_get]. rewrite mget_mset. destruct (String.eqb_spec tok k) as [HE|]; [congruence|]. apply (sf_room _ H).
Qed.

Lemma safe_lookup m m' : (forall k, mget k m' = mget k m) -> (forall a, m' = [("anyOf", JArr a)] -> m = m') -> safe (JObj m) -> safe (JObj m').
Proof.
  intros HM HA H. split; auto; try discriminate.
  - intros HT. rewrite (valid_lookup E m' m _ HM). apply (sf_null _ H). unfold has_type, s_get in *. now rewrite <- HM.
  - intros a [= HE]. rewrite <- (HA a HE) in HE |- *. intros HX. apply (sf_any _ H a); [now rewrite HE|exact HX].
  - intros x [= <-] HI. destruct (sf_plain _ H m eq_refl) as (P1 & P2 & P3).
    { apply imm_false. intros c Hc. rewrite <- HM. now apply imm_false. }
    rewrite !HM. split; [exact P1|]. split; [exact P2|]. rewrite (valid_lookup E (other_keywords m') (other_keywords m)); [exact P3|].
    intros k. unfold other_keywords. rewrite !mget_mdel. now rewrite HM.
  - cbn [s_get]. rewrite HM. apply (sf_room _ H).
Qed.

Lemma validation_safe k : In k validation_keywords -> In k kws /\ ~ In k ctx /\ ~ In k ("type" :: "const" :: "enum" :: immediate_keys).
Proof.
  intros H. split; [|split].
  - cbn in H. repeat (destruct H as [<-|H]; [in_names|]). destruct H.
  - now apply validation_ctx.
  - intros HC. cbn in H, HC. repeat (destruct H as [<-|H]; [intuition discriminate|]). exact H.
Qed.

Lemma safe_add_mutators : forall a s, safe s -> safe (add_mutators a s).
Proof.
  intros a s H. rewrite add_mutators_unfold.
  assert (HO : safe (add_outer a s)).
  { apply (outer_ind safe); [exact H|]. intros s' k x Hin Hs'. pose proof (entries_key _ _ _ Hin) as Hk.
    destruct (validation_safe k Hk) as (V1 & V2 & V3). apply safe_null_kw; auto. intros m. rewrite kw_validation by exact Hk.
    now apply (null_entries E a). }
  destruct (va_inner a) as [i|]; [|exact HO]. destruct (inner_cases (add_outer a s) (add_mutators i)) as [->|(m & it & HE & Hit & HSc & ->)]; [exact HO|].
  rewrite HE in HO. apply (safe_lookup (mset "items" (add_mutators i it) m)).
  - intros k. now apply (mupd_items _ _ it).
  - intros x Hx. exfalso. assert (HX : mget "items" (mupd "items" (fun _ => add_mutators i it) m) = None) by (rewrite Hx; reflexivity).
    rewrite (mupd_items _ _ it) in HX by exact Hit. rewrite mget_mset in HX. discriminate.
  - apply (safe_null_kw "items" (add_mutators i it) (JObj m)); [in_names| | |reflexivity|exact HO];
      intros HH; cbn in HH; intuition discriminate.
Qed.

Lemma safe_mutators {X} (f : field X) s : wf_meta (f_meta f) -> safe s -> safe (field_mutators f s).
Proof.
  intros W H. unfold field_mutators. destruct default_ann as (_ & A2 & A3). destruct tok_default as (_ & T2 & T3).
  pose proof (safe_add_mutators (f_valid f) _ (safe_insert_all _ _ W H)) as H1.
  destruct (f_skip_de f); [apply (safe_insert "readOnly" (JBool true)) in H1; auto|];
    (destruct (f_skip_ser f); [apply (safe_insert "writeOnly" (JBool true)) in H1; auto|auto]).
Qed.

Lemma schema_insert_all l s : is_schema s = true -> is_schema (insert_all l s) = true.
Proof. revert s. induction l as [|[k x] l IH]; intros s H; [exact H|]. rewrite insert_all_cons. apply IH. reflexivity. Qed.

(** The rest of the mutators are annotations. *)
Lemma mutators_checks {X} (f : field X) s v : wf_meta (f_meta f) -> is_schema s = true ->
  ok_ (field_mutators f s) v = ok_ (add_mutators (f_valid f) (insert_all (f_meta f) s)) v.
Proof.
  intros W H. unfold field_mutators. destruct default_ann as (_ & A2 & A3). pose proof (schema_insert_all (f_meta f) s H) as HS.
  apply (mutators_is_schema (f_valid f)) in HS.
  destruct (f_skip_de f), (f_skip_ser f); rewrite ?valid_insert; try apply A2; try apply A3; auto.
Qed.

Lemma valid_bare_mutators {X} (f : field X) s v : wf_meta (f_meta f) -> no_checks (f_valid f) -> is_schema s = true ->
  ok_ (field_mutators f s) v = ok_ s v.
Proof. intros W HC H. rewrite mutators_checks, no_mutators by assumption. now rewrite valid_insert_all. Qed.

Lemma valid_mutators {X} (f : field X) s v : wf_meta (f_meta f) -> is_schema s = true -> satisfies E (f_valid f) v = true ->
  ok_ s v = true -> ok_ (field_mutators f s) v = true.
Proof.
  intros W H HS HV. rewrite mutators_checks by assumption. apply mutators_accept; [now apply schema_insert_all| |exact HS].
  now rewrite valid_insert_all.
Qed.

Lemma valid_default {X} c (f : field X) s v : is_schema s = true -> ok_ (insert_default c f s) v = ok_ s v.
Proof.
  intros H. unfold insert_default. destruct (f_skip_ser f || _); [reflexivity|]. destruct (f_default_value f); [|reflexivity].
  apply valid_insert; [exact H| |]; apply default_ann.
Qed.

(** ** allow_null *)
Lemma allow_null_accepts s : safe s -> ok_ (allow_null s) JNull = true.
Proof.
  intros H. rewrite allow_null_sem; [reflexivity| | |].
  - apply (sf_schema _ H).
  - apply (sf_any _ H).
  - apply (sf_plain _ H).
Qed.

Lemma allow_null_room m : mget tok m = None -> s_get tok (allow_null (JObj m)) = None.
Proof.
  intros H. assert (T : In "type" used /\ In "enum" used /\ In "const" used) by (repeat split; in_names).
  destruct T as (T1 & T2 & T3).
  destruct (Nat.eqb (List.length m) 1 && match mget "anyOf" m with Some (JArr a) => existsb is_null_schema a | _ => false end) eqn:EA.
  { cbn [allow_null]. rewrite EA. exact H. }
  destruct (contains_immediate_subschema m) eqn:EI.
  { cbn [allow_null]. rewrite EA, EI. cbn [s_get obj]. now apply fresh_mk. }
  rewrite allow_null_plain by assumption.
  assert (H1 : mget tok (type_step m) = None).
  { rewrite type_step_get. destruct (String.eqb_spec tok "type") as [HE|]; [|exact H]. exfalso. apply tok_fresh. rewrite HE. exact T1. }
  set (m1 := type_step m) in *. clearbody m1. destruct (mget "const" m) as [c|].
  - cbn [s_get]. destruct (is_null c).
    + rewrite mget_mdel. now destruct (String.eqb tok "const").
    + apply fresh_mset; [exact T2|]. rewrite mget_mdel. now destruct (String.eqb tok "const").
  - destruct (mget "enum" m) as [[| | | |e|]|]; try exact H1. destruct (existsb _ e); [exact H1|]. cbn [s_get].
    now apply fresh_mset.
Qed.

Lemma allow_null_const m : contains_immediate_subschema m = false ->
  forall m', allow_null (JObj m) = JObj m' -> mget "const" m' = None.
Proof.
  intros HI m' HE.
  assert (EA : Nat.eqb (List.length m) 1 && match mget "anyOf" m with Some (JArr a) => existsb is_null_schema a | _ => false end = false).
  { rewrite (proj2 (imm_false m) HI "anyOf") by in_names. apply andb_false_r. }
  rewrite allow_null_plain in HE by assumption.
  destruct (mget "const" m) as [c|] eqn:EC.
  - injection HE as <-. destruct (is_null c).
    + now rewrite mget_mdel.
    + now rewrite mget_mset, mget_mdel.
  - assert (E1 : mget "const" (type_step m) = None) by now rewrite type_step_get.
    destruct (mget "enum" m) as [[| | | |e|]|]; try (injection HE as <-; exact E1).
    destruct (existsb _ e); injection HE as <-; [exact E1|]. now rewrite mget_mset.
Qed.

Lemma safe_allow_null s : safe s -> safe (allow_null s).
Proof.
  intros H. pose proof (allow_null_accepts s H) as HA.
  assert (HS : is_schema (allow_null s) = true).
  { destruct s as [|b| | | |m]; try (now destruct H). 
    - now destruct b.
    - cbn [allow_null]. destruct (_ && _); [reflexivity|]. destruct (contains_immediate_subschema m); [reflexivity|].
      destruct (mget "const" _); [reflexivity|]. destruct (mget "enum" _) as [[| | | |e|]|]; try reflexivity.
      now destruct (existsb _ e). }
  split; auto.
  - intros HE. rewrite HE in HA. discriminate.
  - intros m' HE HI. rewrite HE in HA. rewrite valid_split in HA. rewrite !andb_true_iff in HA. destruct HA as (_ & _ & _ & HO).
    destruct s as [|b| | | |m]; try (now destruct H).
    { destruct b; [discriminate|]. injection HE as <-. repeat split; try discriminate. }
    assert (HC : mget "const" m' = None).
    { destruct (contains_immediate_subschema m) eqn:EI; [|now apply (allow_null_const m)].
      cbn [allow_null] in HE. rewrite EI in HE. destruct (Nat.eqb _ _ && _); [injection HE as ->; congruence|].
      injection HE as <-. reflexivity. }
    rewrite HC. repeat split; congruence.
  - destruct s as [|b| | | |m]; try (now destruct H).
    + destruct b; [reflexivity|]. now destruct (sf_false _ H).
    + apply allow_null_room, (sf_room _ H).
Qed.

(** ** Literal schemas *)
Definition used_keys (l : map_t) : bool := forallb (fun k => existsb (String.eqb k) used) (map fst l).

Lemma safe_obj (l : map_t) : used_keys l = true ->
  forallb (fun k => negb (existsb (String.eqb k) (map fst l))) (["const"; "not"] ++ immediate_keys) = true ->
  match mget "type" (mk l) with Some (JStr t) => negb (String.eqb t "null") | _ => false end = true ->
  safe (obj l).
Proof.
  intros HU HN HT.
  assert (HM : forall k, In k (["const"; "not"] ++ immediate_keys) -> mget k (mk l) = None).
  { intros k Hk. rewrite forallb_forall in HN. apply HN in Hk. destruct (mget k (mk l)) eqn:EM; [|reflexivity]. exfalso.
    apply negb_true_iff in Hk. rewrite <- Bool.not_true_iff_false in Hk. apply Hk, existsb_exists. exists k.
    split; [apply mk_keys; congruence|apply String.eqb_refl]. }
  unfold obj. apply safe_plain.
  - apply imm_false. intros k Hk. apply HM, in_or_app. now right.
  - apply HM. in_names.
  - apply HM. in_names.
  - unfold has_type, s_get. destruct (mget "type" (mk l)) as [[| | |t| |]|]; try discriminate.
    now apply negb_true_iff in HT.
  - now apply fresh_mk.
Qed.
End Base.
