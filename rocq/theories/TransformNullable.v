(** AddNullable and RestrictFormats preserve the meaning of schemas. *)
From Coq Require Import String Ascii List ZArith Bool Lia.
From Verif Require Import Json JsonFacts SchemaApi Validate ValidateFacts Transform TransformSpec
  TransformProofs TransformSem.
Import ListNotations.
Open Scope string_scope.

(** ** AddNullable *)
Definition set_nullable (b : bool) (d : dialect) : dialect :=
  Dialect (d_ref_alone d) (d_items d) (d_uneval d) (d_depend d) (d_const d) b (d_extra d).

Definition is_str (x : json) : bool := match x with JStr _ => true | _ => false end.

(** The only type the schema allows is null. *)
Definition only_null_type (m : map_t) : Prop :=
  match mget "type" m with
  | Some (JStr t) => t = "null"
  | Some (JArr l) => forall x, In x l -> x = JStr "null"
  | _ => False
  end.

(** "type" lists only names, "nullable" is not used yet, and (when the transform is going to set
    "const") a schema of type null has no "const". *)
Definition nullable_ok (add_const : bool) (m : map_t) : Prop :=
  mget "nullable" m = None
  /\ match mget "type" m with Some (JArr l) => forall x, In x l -> is_str x = true | _ => True end
  /\ (add_const = true -> only_null_type m -> mget "const" m = None).

Lemma is_null_name_eq x : is_null_name x = true <-> x = JStr "null".
Proof.
  destruct x; cbn; try (split; discriminate). rewrite String.eqb_eq. split; congruence.
Qed.

Lemma has_null_exists l :
  existsb (fun x => match x with JStr s => String.eqb s "null" | _ => false end) l
  = existsb is_null_name l.
Proof. reflexivity. Qed.

Lemma type_null v : type_ok "null" v = is_null v.
Proof. destruct v; reflexivity. Qed.

Lemma existsb_split (l : list json) v :
  existsb (fun x => type_member x v) l
  = existsb (fun x => type_member x v) (filter (fun t => negb (is_null_name t)) l)
    || (existsb is_null_name l && is_null v).
Proof.
  induction l as [|x l IH]; cbn [existsb filter]; [reflexivity|]. rewrite IH.
  destruct (is_null_name x) eqn:Hx; cbn [negb existsb orb].
  - apply is_null_name_eq in Hx. subst. cbn [type_member]. rewrite type_null.
    destruct (is_null v); rewrite ?andb_true_r, ?andb_false_r, ?orb_true_r, ?orb_false_r; reflexivity.
  - now rewrite orb_assoc.
Qed.

Lemma jeq_null v : jeq v JNull = is_null v.
Proof. destruct v; reflexivity. Qed.

Ltac fin v := try rewrite (jeq_null v); try rewrite (type_null v); destruct (is_null v); cbn [andb orb]; reflexivity.

Lemma add_nullable_here_data d rm ac m : d_nullable d = false ->
  (ac = true -> d_const d = true) -> nullable_ok ac m ->
  exists mh, add_nullable_here rm ac (JObj m) = JObj mh
  /\ (forall k, k <> "type" -> k <> "nullable" -> k <> "const" -> mget k mh = mget k m)
  /\ (forall x, direct_sub mh x -> direct_sub m x)
  /\ (forall v, chk_type (set_nullable true d) (mget "type" mh) (mget "nullable" mh) v
                && chk_const (set_nullable true d) (mget "const" mh) v
                = chk_type d (mget "type" m) (mget "nullable" m) v && chk_const d (mget "const" m) v).
Proof.
  intros Hd Hac (HN & HT & HC).
  assert (FrameT : forall k, k <> "type" -> k <> "nullable" -> k <> "const" ->
    (forall (a : json) mm, mget k (mset "nullable" a mm) = mget k mm)
    /\ (forall (b : json) mm, mget k (mset "const" b mm) = mget k mm)
    /\ (forall (c : json) mm, mget k (mset "type" c mm) = mget k mm)
    /\ forall (mm : map_t), mget k (mdel "type" mm) = mget k mm).
  { intros k H1 H2 H3. repeat split; intros;
      rewrite ?mget_mset, ?mget_mdel, ?(proj2 (String.eqb_neq _ _) H1), ?(proj2 (String.eqb_neq _ _) H2),
      ?(proj2 (String.eqb_neq _ _) H3); auto. }
  unfold add_nullable_here, has_type. cbn [s_get].
  rewrite mget_mset. cbn [String.eqb Ascii.eqb Bool.eqb].
  assert (Hdn : d_nullable (set_nullable true d) = true) by reflexivity.
  assert (Hdc : d_const (set_nullable true d) = d_const d) by reflexivity.
  set (d' := set_nullable true d) in *. clearbody d'.
  destruct (mget "type" m) as [ty|] eqn:Hty; cbn [option_map].
  2:{ exists m. rewrite Hty, HN. repeat split; auto. intros v. unfold chk_const. now rewrite Hdc. }
  assert (Hsame : exists mh : map_t, JObj m = JObj mh /\
    (forall k, k <> "type" -> k <> "nullable" -> k <> "const" -> mget k mh = mget k m)
  /\ (forall x, direct_sub mh x -> direct_sub m x)
  /\ (forall v, chk_type d' (mget "type" mh) (mget "nullable" mh) v && chk_const d' (mget "const" mh) v
                = chk_type d (Some ty) (mget "nullable" m) v && chk_const d (mget "const" m) v)).
  { exists m. repeat split; auto. intros v. rewrite Hty, HN. unfold chk_const, chk_type. rewrite Hdc, Hd, Hdn.
    reflexivity. }
  pose proof (fun v mm x => direct_mset_other "nullable" v mm x eq_refl) as D1.
  pose proof (fun v mm x => direct_mset_other "const" v mm x eq_refl) as D2.
  pose proof (fun v mm x => direct_mset_other "type" v mm x eq_refl) as D3.
  destruct ty as [| | |t|l|]; try exact Hsame.
  - destruct (String.eqb_spec t "null"); [subst t|exact Hsame].
    assert (HC' : ac = true -> mget "const" m = None).
    { intros Ha. apply HC; auto. unfold only_null_type. now rewrite Hty. }
    destruct ac.
    + rewrite (HC' eq_refl). destruct rm; eexists; (split; [reflexivity|]); repeat split; auto.
      * intros k H1 H2 H3. destruct (FrameT k H1 H2 H3) as (A1 & A2 & A3 & A4).
        now rewrite A4, A2, A1.
      * intros x Hx. apply direct_mdel in Hx. eauto.
      * intros v. lookups. cbn [chk_type chk_const]. rewrite Hd, Hdc, (Hac eq_refl). cbn [negb andb orb].
        fin v.
      * intros k H1 H2 H3. destruct (FrameT k H1 H2 H3) as (A1 & A2 & A3 & A4).
        now rewrite A2, A1.
      * intros x Hx. eauto.
      * intros v. lookups. rewrite Hty. cbn [chk_type chk_const]. rewrite Hd, Hdc, Hdn, (Hac eq_refl). cbn [negb andb orb].
        fin v.
    + destruct rm; eexists; (split; [reflexivity|]); repeat split; auto.
      * intros k H1 H2 H3. destruct (FrameT k H1 H2 H3) as (A1 & A2 & A3 & A4). now rewrite A3, A1.
      * intros x Hx. eauto.
      * intros v. lookups. cbn [chk_type existsb]. unfold chk_const. rewrite Hd, Hdc, Hdn. cbn [andb orb].
        fin v.
      * intros k H1 H2 H3. destruct (FrameT k H1 H2 H3) as (A1 & A2 & A3 & A4). now rewrite A1.
      * intros x Hx. eauto.
      * intros v. lookups. rewrite Hty. cbn [chk_type existsb]. unfold chk_const. rewrite Hd, Hdc, Hdn. cbn [andb orb].
        fin v.
  - rewrite has_null_exists. destruct (existsb is_null_name l) eqn:Hex; [|exact Hsame].
    destruct (forallb is_null_name l) eqn:Hall.
    + assert (HC' : ac = true -> mget "const" m = None).
      { intros Ha. apply HC; auto. unfold only_null_type. rewrite Hty. intros x Hx.
        rewrite forallb_forall in Hall. now apply is_null_name_eq, Hall. }
      assert (Hl : forall v, existsb (fun x => type_member x v) l = is_null v).
      { intros v. rewrite existsb_split, Hex.
        assert (Hf : filter (fun t => negb (is_null_name t)) l = []).
        { clear -Hall. induction l as [|x l IH]; [reflexivity|]. cbn in *.
          apply andb_prop in Hall as [H1 H2]. rewrite H1. cbn. auto. }
        rewrite Hf. reflexivity. }
      destruct ac.
      * rewrite (HC' eq_refl). destruct rm; eexists; (split; [reflexivity|]); repeat split; auto.
        -- intros k H1 H2 H3. destruct (FrameT k H1 H2 H3) as (A1 & A2 & A3 & A4).
           now rewrite A4, A2, A1.
        -- intros x Hx. apply direct_mdel in Hx. eauto.
        -- intros v. lookups. cbn [chk_type chk_const]. rewrite Hd, Hdc, (Hac eq_refl). cbn [negb andb orb].
           rewrite ?Hl; fin v.
        -- intros k H1 H2 H3. destruct (FrameT k H1 H2 H3) as (A1 & A2 & A3 & A4).
           now rewrite A2, A1.
        -- intros x Hx. eauto.
        -- intros v. lookups. rewrite Hty. cbn [chk_type chk_const]. rewrite Hd, Hdc, Hdn, (Hac eq_refl). cbn [negb andb orb].
           rewrite ?Hl; fin v.
      * destruct rm; eexists; (split; [reflexivity|]); repeat split; auto.
        -- intros k H1 H2 H3. destruct (FrameT k H1 H2 H3) as (A1 & A2 & A3 & A4). now rewrite A3, A1.
        -- intros x Hx. eauto.
        -- intros v. lookups. cbn [chk_type existsb]. unfold chk_const. rewrite Hd, Hdc, Hdn. cbn [andb orb].
           rewrite ?Hl; fin v.
        -- intros k H1 H2 H3. destruct (FrameT k H1 H2 H3) as (A1 & A2 & A3 & A4). now rewrite A1.
        -- intros x Hx. eauto.
        -- intros v. lookups. rewrite Hty. cbn [chk_type existsb]. unfold chk_const. rewrite Hd, Hdc, Hdn. cbn [andb orb].
           rewrite ?Hl; fin v.
    + destruct rm.
      2:{ eexists; (split; [reflexivity|]); repeat split; auto.
        - intros k H1 H2 H3. destruct (FrameT k H1 H2 H3) as (A1 & A2 & A3 & A4). now rewrite A1.
        - intros x Hx. eauto.
        - intros v. lookups. rewrite Hty. cbn [chk_type]. unfold chk_const. rewrite Hd, Hdc, Hdn. cbn [andb orb].
          rewrite existsb_split, Hex. cbn [andb].
          rewrite orb_false_r. destruct (is_null v); rewrite ?orb_true_r, ?orb_false_r; reflexivity. }
      set (fl := filter (fun t => negb (is_null_name t)) l) in *.
      assert (Hfs : forall x, In x fl -> is_str x = true).
      { intros x Hx. apply filter_In in Hx as [Hx _]. auto. }
      assert (Hgen : forall ty', (forall v, match ty' with
                  | JStr s => type_ok s v
                  | JArr l => existsb (fun x => type_member x v) l
                  | _ => true end = existsb (fun x => type_member x v) fl) ->
         exists mh : map_t, JObj (mset "type" ty' (mset "nullable" (JBool true) m)) = JObj mh /\
    (forall k, k <> "type" -> k <> "nullable" -> k <> "const" -> mget k mh = mget k m)
  /\ (forall x, direct_sub mh x -> direct_sub m x)
  /\ (forall v, chk_type d' (mget "type" mh) (mget "nullable" mh) v && chk_const d' (mget "const" mh) v
                = chk_type d (Some (JArr l)) (mget "nullable" m) v && chk_const d (mget "const" m) v)).
      { intros ty' Hty'. eexists; (split; [reflexivity|]); repeat split; auto.
        - intros k H1 H2 H3. destruct (FrameT k H1 H2 H3) as (A1 & A2 & A3 & A4). now rewrite A3, A1.
        - intros x Hx. eauto.
        - intros v. lookups. unfold chk_type. rewrite Hty'. unfold chk_const. rewrite Hd, Hdc, Hdn. cbn [andb orb].
          rewrite (existsb_split l), Hex. fold fl. cbn [andb]. now rewrite orb_false_r. }
      clearbody fl. destruct fl as [|x [|y fl]].
      * apply Hgen. reflexivity.
      * apply Hgen. intros v. specialize (Hfs x (or_introl eq_refl)). destruct x; try discriminate.
        cbn. now rewrite orb_false_r.
      * apply Hgen. reflexivity.
Qed.

Lemma add_nullable_keeps rm ac : keeps_subs (add_nullable_here rm ac).
Proof.
  intros s. split.
  - destruct s; auto; discriminate.
  - intros m ->. unfold add_nullable_here.
    pose proof (fun v mm x => direct_mset_other "nullable" v mm x eq_refl) as D1.
    pose proof (fun v mm x => direct_mset_other "const" v mm x eq_refl) as D2.
    pose proof (fun v mm x => direct_mset_other "type" v mm x eq_refl) as D3.
    assert (Hd0 : exists m', JObj m = JObj m' /\ forall x, direct_sub m' x -> direct_sub m x) by eauto.
    assert (Hd1 : exists m', JObj (mset "nullable" (JBool true) m) = JObj m'
              /\ forall x, direct_sub m' x -> direct_sub m x) by (eexists; split; [reflexivity|eauto]).
    destruct (has_type "null" (JObj m)); [|exact Hd0].
    destruct (mget "type" _) as [ty|]; [|exact Hd1].
    assert (HT : forall ty', exists m', JObj (mset "type" ty' (mset "nullable" (JBool true) m)) = JObj m'
              /\ forall x, direct_sub m' x -> direct_sub m x) by (intros; eexists; split; [reflexivity|eauto]).
    destruct (match ty with JArr l => _ | _ => true end).
    + destruct ac.
      * destruct rm; eexists; (split; [reflexivity|]); intros x Hx; try apply direct_mdel in Hx; eauto.
      * destruct rm; auto.
    + destruct rm; [|exact Hd1]. destruct ty; auto. destruct (filter _ l) as [|? [|]]; apply HT.
Qed.

Lemma add_nullable_unfold rm ac s :
  add_nullable rm ac s = transform_subschemas (add_nullable rm ac) (add_nullable_here rm ac s).
Proof. apply (pre_unfold _ s (add_nullable_keeps rm ac)). Qed.

Lemma add_nullable_schema rm ac s : is_schema s = true -> is_schema (add_nullable rm ac s) = true.
Proof.
  rewrite add_nullable_unfold. destruct s as [| | | | |m]; try discriminate; auto. intros _.
  destruct (proj2 (add_nullable_keeps rm ac (JObj m)) m eq_refl) as (m' & -> & _). reflexivity.
Qed.

Lemma nullable_main d d' E (R R' : string -> option json) S v :
  d' = set_nullable true d ->
  (forall k, In k data_names -> k <> "type" -> k <> "nullable" -> k <> "const" -> R' k = R k) ->
  chk_type d' (R' "type") (R' "nullable") v && chk_const d' (R' "const") v
  = chk_type d (R "type") (R "nullable") v && chk_const d (R "const") v ->
  req (eval_obj d' E R' S v) (eval_obj d E R S v).
Proof.
  intros -> HR HC. set (d' := set_nullable true d) in *.
  assert (Hr : R' "$ref" = R "$ref") by (apply HR; try discriminate; in_names).
  destruct (d_ref_alone d && has_ref R) eqn:Hra.
  { apply eval_obj_ref; unfold has_ref in *; rewrite ?Hr; auto. }
  apply eval_obj_req; unfold has_ref in *; rewrite ?Hr; auto.
  - unfold chk_main. rewrite Hr. rewrite (assertions_ext E R' R).
    2:{ intros k Hk. apply HR; [|in_cases Hk; discriminate ..]. unfold data_names. cbn [In]. tauto. }
    rewrite (HR "enum") by (try discriminate; in_names).
    transitivity (chk_ref E (R "$ref") v
      && (chk_type d' (R' "type") (R' "nullable") v && chk_const d' (R' "const") v)
      && chk_enum (R "enum") v && chk_assertions E R v && chk_all (S "allOf") v
      && chk_any (S "anyOf") v && chk_one (S "oneOf") v && chk_not (S "not") v
      && chk_if (when (d_extra d') (S "if")) (S "then") (S "else") v
      && chk_items d' (S "prefixItems") (S "items") (S "additionalItems") v
      && chk_contains (when (d_extra d') (S "contains")) v && chk_props (S "properties") v
      && chk_patterns E (when (d_extra d') (S "patternProperties")) v
      && chk_additional E (S "properties") (when (d_extra d') (S "patternProperties")) (S "additionalProperties") v
      && chk_names (when (d_extra d') (S "propertyNames")) v
      && chk_dependent (when (d_depend d') (S "dependentSchemas")) v).
    { do 12 f_equal. destruct (chk_ref _ _ _), (chk_type d' _ _ _), (chk_enum _ _), (chk_const d' _ _); reflexivity. }
    rewrite HC.
    change (chk_items d') with (chk_items d). change (d_extra d') with (d_extra d).
    change (d_depend d') with (d_depend d).
    do 12 f_equal. destruct (chk_ref _ _ _), (chk_type d _ _ _), (chk_enum _ _), (chk_const d _ _); reflexivity.
  - intros k. unfold ev_main. rewrite Hr. reflexivity.
Qed.

Lemma add_nullable_sem d rm ac E s : d_nullable d = false -> (ac = true -> d_const d = true) ->
  everywhere (fun m => nullable_ok ac m /\ no_hidden m) s ->
  feq (eval (set_nullable true d) E (add_nullable rm ac s)) (eval d E s).
Proof.
  intros Hd Hac HP. induction HP as [s Hs|m [HP HU] _ IH].
  - rewrite add_nullable_unfold. destruct s; try discriminate; apply feq_refl.
  - rewrite add_nullable_unfold.
    destruct (add_nullable_here_data d rm ac m Hd Hac HP) as (mh & -> & HF & HD & HC).
    cbn [transform_subschemas]. fold (tmap (add_nullable rm ac) mh).
    set (T := add_nullable rm ac) in *. set (d' := set_nullable true d) in *.
    assert (HS : srel (fun k => option_map (sub_of d' E) (mget k (tmap T m)))
                   (fun k => option_map (sub_of d E) (mget k m))).
    { apply tmap_srel; [intros x; apply add_nullable_schema|exact IH|now apply no_hidden_ok]. }
    intros v. eapply req_trans; [apply eval_JObj|]. apply req_sym.
    eapply req_trans; [apply eval_JObj|]. apply req_sym. unfold eval_map.
    eapply req_trans.
    2:{ apply eval_obj_congr; [intros k Hk; reflexivity|exact HS]. }
    eapply req_trans.
    { apply eval_obj_congr with (R' := fun k => mget k mh)
        (S' := fun k => option_map (sub_of d' E) (mget k (tmap T m))).
      - apply tmap_data.
      - assert (HX : forall k, In k (den_names ++ arr_names ++ obj_names) -> mget k (tmap T mh) = mget k (tmap T m)).
        { intros k Hk. rewrite !mget_tmap. f_equal. apply HF; in_cases Hk; discriminate. }
        split; intros k Hk; rewrite HX; auto; rewrite !in_app_iff; auto. }
    apply nullable_main; auto.
Qed.
