(** Meaning of the small schema shapes the library builds: an object schema without keywords that
    look at other keywords accepts what each of its entries accepts. *)
From Coq Require Import String Ascii List ZArith NArith Bool Lia.
From Verif Require Import Json JsonFacts Utf8 SchemaApi Validate ValidateFacts ValidateKw Private
  PrivateNull PrivateProps PrivateFlatten Transform TransformNullable.
Import ListNotations.
Open Scope string_scope.

Section Shape.
Variable E : env.
Notation ok_ := (valid D2020 E).

Ltac not_ctx' := intros HH; cbn in HH; repeat (destruct HH as [HH|HH]; [discriminate|]); exact HH.

(** Annotations do not change the meaning. *)
Lemma valid_annotation k x m v : ~ In k kws -> ~ In k ctx -> ok_ (JObj (mset k x m)) v = ok_ (JObj m) v.
Proof.
  intros Hk Hc. rewrite valid_set by exact Hc. rewrite kw_other by exact Hk. cbn [andb].
  rewrite (valid_out E k m v Hc). unfold kw_all. destruct (mget k m); [now rewrite kw_other by exact Hk|reflexivity].
Qed.

Lemma valid_ensure s v : is_schema s = true -> ok_ (JObj (ensure_obj s)) v = ok_ s v.
Proof.
  intros H. destruct s as [|b| | | |m]; try discriminate; [|reflexivity].
  destruct b; [symmetry; exact (proj1 (eval_true D2020 E v))|]. symmetry. exact (proj1 (eval_false D2020 E v)).
Qed.

Lemma valid_insert k x s v : is_schema s = true -> ~ In k kws -> ~ In k ctx -> ok_ (insert k x s) v = ok_ s v.
Proof. intros HS Hk Hc. unfold insert. rewrite valid_annotation by auto. now apply valid_ensure. Qed.

(** allow_null never removes an accepted value. *)
Theorem allow_null_mono s v : ok_ s v = true -> ok_ (allow_null s) v = true.
Proof.
  intros H. destruct s as [|b| | | |m]; try exact H.
  { destruct b; [reflexivity|]. discriminate. }
  destruct (Nat.eqb (List.length m) 1
   && match mget "anyOf" m with Some (JArr a) => existsb is_null_schema a | _ => false end) eqn:EA.
  { cbn [allow_null]. now rewrite EA. }
  destruct (contains_immediate_subschema m) eqn:EI.
  { cbn [allow_null]. rewrite EA, EI. unfold obj, mk, mappend. cbn [fold_left fst snd mset].
    rewrite valid_entries by (cbn; constructor; [auto|constructor]).
    cbn [forallb fst snd]. unfold kw. cbn [String.eqb Ascii.eqb Bool.eqb existsb assertion_names orb].
    unfold chk_any. cbn [arr_of sub_of s_arr map existsb].
    change (ok (eval D2020 E (JObj m) v)) with (valid D2020 E (JObj m) v). now rewrite H. }
  rewrite (allow_null_plain m EI EA).
  assert (HO : forall m', (forall k, k <> "type" -> k <> "enum" -> k <> "const" -> mget k m' = mget k m) ->
            valid D2020 E (JObj (other_keywords m')) v = valid D2020 E (JObj (other_keywords m)) v).
  { intros m' Hm. now apply other_ext. }
  rewrite (valid_split E m) in H. apply andb_true_iff in H as [H1 H]. apply andb_true_iff in H as [H2 H].
  apply andb_true_iff in H as [H3 H4].
  assert (HT : match null_type (mget "type" m) with Some x => chk_type D2020 (Some x) None v | None => true end = true).
  { fold (chk_type_opt (null_type (mget "type" m)) v). rewrite null_type_sem. unfold chk_type_opt. rewrite H1.
    apply orb_true_r. }
  destruct (mget "const" m) as [c|] eqn:EC.
  - destruct (is_null c) eqn:Hc.
    + rewrite valid_split, HO, H4.
      2:{ intros k K1 K2 K3. rewrite mget_mdel, type_step_get.
        destruct (String.eqb_spec k "const"); [congruence|]. destruct (String.eqb_spec k "type"); congruence. }
      rewrite !mget_mdel, !type_step_get. cbn [String.eqb Ascii.eqb Bool.eqb]. rewrite HT, H2. reflexivity.
    + rewrite valid_split, HO, H4.
      2:{ intros k K1 K2 K3. rewrite mget_mset, mget_mdel, type_step_get.
        destruct (String.eqb_spec k "enum"); [congruence|]. destruct (String.eqb_spec k "const"); [congruence|].
        destruct (String.eqb_spec k "type"); congruence. }
      rewrite !mget_mset, !mget_mdel, !type_step_get. cbn [String.eqb Ascii.eqb Bool.eqb].
      rewrite HT. cbn [chk_enum existsb]. now rewrite H3.
  - destruct (mget "enum" m) as [en|] eqn:EE.
    + destruct en as [| | | |e|];
        try (rewrite valid_split, HO, H4;
             [|intros k K1 K2 K3; rewrite type_step_get; destruct (String.eqb_spec k "type"); congruence];
             rewrite !type_step_get; cbn [String.eqb Ascii.eqb Bool.eqb]; rewrite EE, EC, HT; reflexivity).
      destruct (existsb (json_eqb JNull) e) eqn:EN.
      * rewrite valid_split, HO, H4.
        2:{ intros k K1 K2 K3. rewrite type_step_get. destruct (String.eqb_spec k "type"); congruence. }
        rewrite !type_step_get. cbn [String.eqb Ascii.eqb Bool.eqb]. rewrite EE, EC, HT, H2. reflexivity.
      * rewrite valid_split, HO, H4.
        2:{ intros k K1 K2 K3. rewrite mget_mset, type_step_get.
            destruct (String.eqb_spec k "enum"); [congruence|]. destruct (String.eqb_spec k "type"); congruence. }
        rewrite !mget_mset, !type_step_get. cbn [String.eqb Ascii.eqb Bool.eqb]. rewrite EC, HT.
        cbn [chk_enum] in *. rewrite existsb_app_one, H2. reflexivity.
    + rewrite valid_split, HO, H4.
      2:{ intros k K1 K2 K3. rewrite type_step_get. destruct (String.eqb_spec k "type"); congruence. }
      rewrite !type_step_get. cbn [String.eqb Ascii.eqb Bool.eqb]. rewrite EE, EC, HT. reflexivity.
Qed.

(** ** Maps built by [mk] *)
Lemma mget_mk_NoDup {A} k (l : list (string * A)) : NoDup (map fst l) -> mget k (mk l) = mget k l.
Proof. intros H. unfold mk. rewrite mget_mappend_NoDup by exact H. cbn. now destruct (mget k l). Qed.

Lemma valid_mk l v : NoDup (map fst l) ->
  ok_ (JObj (mk l)) v = forallb (fun kv => kw E l (fst kv) (snd kv) v) l.
Proof.
  intros H. rewrite <- valid_entries by exact H. apply valid_lookup. intros k. now apply mget_mk_NoDup.
Qed.

Ltac no_dup := cbn [map fst]; repeat (constructor; [not_ctx'|]); constructor.

(** Arrays: "items" alone, and "prefixItems" with both length bounds. *)
Lemma valid_items s v :
  ok_ (obj [("type", JStr "array"); ("items", s)]) v
  = match v with JArr l => forallb (ok_ s) l | _ => false end.
Proof.
  unfold obj. rewrite valid_mk by no_dup. cbn [forallb fst snd]. unfold kw.
  cbn [String.eqb Ascii.eqb Bool.eqb existsb assertion_names orb]. destruct v; try reflexivity.
  cbn [mget String.eqb Ascii.eqb Bool.eqb skipn]. unfold chk_type. cbn. now rewrite !andb_true_r.
Qed.

Lemma valid_anyOf l v : ok_ (obj [("anyOf", JArr l)]) v = existsb (fun s => ok_ s v) l.
Proof.
  unfold obj. rewrite valid_mk by no_dup. cbn [forallb fst snd]. unfold kw.
  cbn [String.eqb Ascii.eqb Bool.eqb existsb assertion_names orb]. unfold chk_any. cbn [arr_of sub_of s_arr].
  rewrite andb_true_r. induction l as [|s l IH]; [reflexivity|]. cbn [map existsb]. now rewrite IH.
Qed.

Lemma zip_ok_pairs ss l : zip_ok (map (eval D2020 E) ss) l
  = forallb (fun p => ok_ (fst p) (snd p)) (combine ss l).
Proof.
  revert l. induction ss as [|s ss IH]; intros [|x l]; try reflexivity. cbn. now rewrite IH.
Qed.

Lemma num_leb_int a b : num_leb (NInt a) (NInt b) = Z.leb a b.
Proof.
  unfold num_leb, num_cmp. cbn [num_me]. rewrite Z.min_id, Z.sub_diag. cbn [Z.pow]. rewrite !Z.mul_1_r.
  unfold Z.leb. now destruct (a ?= b)%Z.
Qed.

Definition tuple_map (items : list json) : map_t :=
  let len := JNum (NInt (Z.of_nat (List.length items))) in
  mk [("type", JStr "array"); ("prefixItems", JArr items); ("maxItems", len); ("minItems", len)].

Lemma valid_tuple items v :
  ok_ (JObj (tuple_map items)) v
  = match v with
    | JArr l => Nat.eqb (List.length l) (List.length items)
                && forallb (fun p => ok_ (fst p) (snd p)) (combine items l)
    | _ => false
    end.
Proof.
  unfold tuple_map. rewrite valid_mk by no_dup. cbn [forallb fst snd]. unfold kw.
  cbn [String.eqb Ascii.eqb Bool.eqb existsb assertion_names orb]. destruct v as [| | | |l|]; try reflexivity.
  unfold assertion. cbn [String.eqb Ascii.eqb Bool.eqb]. rewrite !num_leb_int. rewrite zip_ok_pairs.
  unfold chk_type. cbn [type_ok String.eqb Ascii.eqb Bool.eqb orb]. rewrite !andb_true_r.
  cbn [andb]. rewrite andb_comm. f_equal. apply eq_true_iff_eq. rewrite andb_true_iff, !Z.leb_le, Nat.eqb_eq. lia.
Qed.

(** Objects with "properties" only *)
Lemma valid_object_props ps v :
  ok_ (JObj (mk [("type", JStr "object"); ("properties", JObj ps)])) v
  = match v with JObj o => props_ok E ps (JObj o) | _ => false end.
Proof.
  rewrite valid_mk by no_dup. cbn [forallb fst snd]. unfold kw.
  cbn [String.eqb Ascii.eqb Bool.eqb existsb assertion_names orb]. destruct v; try reflexivity.
  now rewrite chk_props_ok, !andb_true_r.
Qed.

Lemma valid_object_additional s v :
  ok_ (obj [("type", JStr "object"); ("additionalProperties", s)]) v
  = match v with JObj o => forallb (fun kx => ok_ s (snd kx)) o | _ => false end.
Proof.
  unfold obj. rewrite valid_mk by no_dup. cbn [forallb fst snd]. unfold kw.
  cbn [String.eqb Ascii.eqb Bool.eqb existsb assertion_names orb]. destruct v; try reflexivity.
  unfold chk_type. cbn [type_ok String.eqb Ascii.eqb Bool.eqb orb]. rewrite !andb_true_r. reflexivity.
Qed.

End Shape.
