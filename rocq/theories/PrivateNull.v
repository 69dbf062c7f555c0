(** What allow_null does to the meaning of a schema. *)
From Coq Require Import String Ascii List ZArith NArith Bool Lia.
From Verif Require Import Json JsonFacts Utf8 SchemaApi Validate ValidateFacts ValidateKw Private
  TransformNullable.
Import ListNotations.
Open Scope string_scope.

Section Null.
Variable E : env.

(** The keywords other than type, enum and const. *)
Definition other_keywords (m : map_t) : map_t := mdel "const" (mdel "enum" (mdel "type" m)).

Ltac not_ctx := let H := fresh in intros H; cbn in H; intuition discriminate.
Ltac not_ctx' := intros HH; cbn in HH; repeat (destruct HH as [HH|HH]; [discriminate|]); exact HH.

Lemma valid_split m v :
  valid D2020 E (JObj m) v =
  (match mget "type" m with Some x => chk_type D2020 (Some x) None v | None => true end
   && (match mget "enum" m with Some x => chk_enum (Some x) v | None => true end
       && (match mget "const" m with Some x => jeq v x | None => true end
           && valid D2020 E (JObj (other_keywords m)) v))).
Proof.
  rewrite (valid_out E "type") by not_ctx'. f_equal.
  rewrite (valid_out E "enum") by not_ctx'. f_equal.
  { unfold kw_all. rewrite mget_mdel. reflexivity. }
  rewrite (valid_out E "const") by not_ctx'. f_equal.
  unfold kw_all. rewrite !mget_mdel. reflexivity.
Qed.

Lemma other_ext m m' :
  (forall k, k <> "type" -> k <> "enum" -> k <> "const" -> mget k m = mget k m') ->
  forall v, valid D2020 E (JObj (other_keywords m)) v = valid D2020 E (JObj (other_keywords m')) v.
Proof.
  intros H v. apply valid_lookup. intros k. unfold other_keywords. rewrite !mget_mdel.
  destruct (String.eqb_spec k "const"); [auto|]. destruct (String.eqb_spec k "enum"); [auto|].
  destruct (String.eqb_spec k "type"); auto.
Qed.

Lemma json_eqb_null_in e : existsb (json_eqb JNull) e = existsb is_null e.
Proof. apply existsb_eq. intros [] _; reflexivity. Qed.

Lemma jeq_null_l x : jeq JNull x = is_null x.
Proof. destruct x; reflexivity. Qed.

Lemma existsb_app_one {A} (f : A -> bool) l x : existsb f (l ++ [x]) = existsb f l || f x.
Proof. rewrite existsb_app. cbn. now rewrite orb_false_r. Qed.

Lemma null_in_jeq e v : existsb is_null e = true -> is_null v = true -> existsb (jeq v) e = true.
Proof.
  intros H Hv. destruct v; try discriminate. apply existsb_exists in H as (x & Hx & Hn).
  apply existsb_exists. exists x. split; [exact Hx|]. now rewrite jeq_null_l.
Qed.

(** "type" after allow_null *)
Definition null_type (t : option json) : option json :=
  match t with
  | Some (JArr l) => Some (JArr (if existsb (json_eqb (JStr "null")) l then l else l ++ [JStr "null"]))
  | Some (JStr x) => Some (if String.eqb x "null" then JStr x else JArr [JStr x; JStr "null"])
  | t => t
  end.

Definition chk_type_opt (t : option json) (v : json) : bool :=
  match t with Some x => chk_type D2020 (Some x) None v | None => true end.

Lemma null_type_sem t v : chk_type_opt (null_type t) v = is_null v || chk_type_opt t v.
Proof.
  destruct t as [[| | |x|l|]|]; cbn [null_type chk_type_opt]; unfold chk_type;
    rewrite ?orb_true_r; auto.
  - destruct (String.eqb_spec x "null") as [->|]; unfold type_member; cbn [existsb d_nullable D2020];
      rewrite ?type_null, ?orb_false_r.
    + now destruct (is_null v).
    + apply orb_comm.
  - destruct (existsb (json_eqb (JStr "null")) l) eqn:EL; rewrite ?orb_false_r.
    + destruct (is_null v) eqn:Hv; [|reflexivity]. destruct v; try discriminate. cbn [orb].
      apply existsb_exists in EL as (y & Hy & He). apply json_eqb_eq in He. subst y.
      apply existsb_exists. exists (JStr "null"). split; [exact Hy|reflexivity].
    + rewrite existsb_app_one. unfold type_member at 2. rewrite type_null. apply orb_comm.
Qed.

(** The map after the "type" step *)
Definition type_step (m : map_t) : map_t :=
  match mget "type" m with
  | Some (JArr l) =>
      if existsb (json_eqb (JStr "null")) l then m else mset "type" (JArr (l ++ [JStr "null"])) m
  | Some (JStr x) =>
      if String.eqb x "null" then m else mset "type" (JArr [JStr x; JStr "null"]) m
  | _ => m
  end.

Lemma type_step_get m k :
  mget k (type_step m) = if String.eqb k "type" then null_type (mget "type" m) else mget k m.
Proof.
  unfold type_step. destruct (mget "type" m) as [[| | |x|l|]|] eqn:ET; cbn [null_type];
    try (destruct (String.eqb_spec k "type"); [now subst|reflexivity]).
  - destruct (String.eqb x "null").
    + destruct (String.eqb_spec k "type"); [now subst|reflexivity].
    + now rewrite mget_mset.
  - destruct (existsb _ l).
    + destruct (String.eqb_spec k "type"); [now subst|reflexivity].
    + now rewrite mget_mset.
Qed.

Lemma allow_null_plain m :
  contains_immediate_subschema m = false ->
  (Nat.eqb (List.length m) 1
   && match mget "anyOf" m with Some (JArr a) => existsb is_null_schema a | _ => false end) = false ->
  allow_null (JObj m) =
  match mget "const" m with
  | Some c => JObj (if is_null c then mdel "const" (type_step m)
                    else mset "enum" (JArr [c; JNull]) (mdel "const" (type_step m)))
  | None => match mget "enum" m with
            | Some (JArr e) => if existsb (json_eqb JNull) e then JObj (type_step m)
                               else JObj (mset "enum" (JArr (e ++ [JNull])) (type_step m))
            | _ => JObj (type_step m)
            end
  end.
Proof.
  intros H1 H2. cbn [allow_null]. rewrite H1, H2.
  change (match mget "const" (type_step m) with
        | Some c =>
            JObj (if is_null c then mdel "const" (type_step m)
                  else mset "enum" (JArr [c; JNull]) (mdel "const" (type_step m)))
        | None =>
            match mget "enum" (type_step m) with
            | Some (JArr e) =>
                if existsb (json_eqb JNull) e then JObj (type_step m)
                else JObj (mset "enum" (JArr (e ++ [JNull])) (type_step m))
            | _ => JObj (type_step m)
            end
        end = match mget "const" m with
  | Some c => JObj (if is_null c then mdel "const" (type_step m)
                    else mset "enum" (JArr [c; JNull]) (mdel "const" (type_step m)))
  | None => match mget "enum" m with
            | Some (JArr e) => if existsb (json_eqb JNull) e then JObj (type_step m)
                               else JObj (mset "enum" (JArr (e ++ [JNull])) (type_step m))
            | _ => JObj (type_step m)
            end
  end).
  rewrite !type_step_get. cbn [String.eqb Ascii.eqb Bool.eqb]. reflexivity.
Qed.

Theorem allow_null_sem s v :
  is_schema s = true ->
  (forall a, s = JObj [("anyOf", JArr a)] -> existsb is_null_schema a = true ->
             valid D2020 E s JNull = true) ->
  (forall m, s = JObj m -> contains_immediate_subschema m = false ->
     mget "const" m <> Some JNull /\ (mget "const" m <> None -> mget "enum" m = None)
     /\ valid D2020 E (JObj (other_keywords m)) JNull = true) ->
  valid D2020 E (allow_null s) v = is_null v || valid D2020 E s v.
Proof.
  intros HS HA HC. destruct s as [|b| | | |m]; try discriminate.
  { destruct b; cbn; [now rewrite orb_true_r|]. rewrite orb_false_r. unfold unit_schema, obj, mk. cbn.
    destruct v; reflexivity. }
  destruct (Nat.eqb (List.length m) 1
   && match mget "anyOf" m with Some (JArr a) => existsb is_null_schema a | _ => false end) eqn:EA.
  { cbn [allow_null]. rewrite EA. apply andb_true_iff in EA as [E1 E2]. apply Nat.eqb_eq in E1.
    destruct m as [|[k x] [|? ?]]; try discriminate. cbn [mget] in E2.
    destruct (String.eqb_spec "anyOf" k); [|discriminate]. subst k. destruct x; try discriminate.
    specialize (HA l eq_refl E2). destruct (is_null v) eqn:Hv; [|reflexivity].
    destruct v; try discriminate. now rewrite HA. }
  destruct (contains_immediate_subschema m) eqn:EI.
  { cbn [allow_null]. rewrite EA, EI. unfold obj, mk, mappend. cbn [fold_left fst snd mset].
    rewrite valid_entries by (cbn; constructor; [auto|constructor]).
    cbn [forallb fst snd]. unfold kw. cbn [String.eqb Ascii.eqb Bool.eqb existsb assertion_names orb].
    unfold chk_any. cbn [arr_of sub_of s_arr map existsb]. rewrite andb_true_r, orb_false_r.
    change (ok (eval D2020 E (JObj m) v)) with (valid D2020 E (JObj m) v).
    rewrite orb_comm. f_equal. destruct v; reflexivity. }
  rewrite (allow_null_plain m EI EA). destruct (HC m eq_refl EI) as (H1 & H2 & H3).
  assert (HO : forall m', (forall k, k <> "type" -> k <> "enum" -> k <> "const" -> mget k m' = mget k m) ->
            valid D2020 E (JObj (other_keywords m')) v = valid D2020 E (JObj (other_keywords m)) v).
  { intros m' Hm. now apply other_ext. }
  assert (HN : is_null v = true -> valid D2020 E (JObj (other_keywords m)) v = true).
  { intros Hv. destruct v; try discriminate. exact H3. }
  rewrite (valid_split m).
  destruct (mget "const" m) as [c|] eqn:EC.
  - specialize (H2 ltac:(discriminate)). assert (Hc : is_null c = false) by (destruct c; cbn; congruence).
    rewrite Hc, valid_split, HO.
    2:{ intros k K1 K2 K3. rewrite mget_mset, mget_mdel, type_step_get.
        destruct (String.eqb_spec k "enum"); [congruence|]. destruct (String.eqb_spec k "const"); [congruence|].
        destruct (String.eqb_spec k "type"); congruence. }
    rewrite !mget_mset, !mget_mdel, !type_step_get. cbn [String.eqb Ascii.eqb Bool.eqb].
    rewrite H2. fold (chk_type_opt (null_type (mget "type" m)) v). fold (chk_type_opt (mget "type" m) v).
    rewrite null_type_sem. cbn [chk_enum existsb]. rewrite jeq_null, orb_false_r.
    destruct (is_null v) eqn:Hv; cbn [orb andb].
    + rewrite orb_true_r, HN by auto. reflexivity.
    + now rewrite orb_false_r.
  - destruct (mget "enum" m) as [en|] eqn:EE.
    + destruct en as [| | | |e|];
        try (rewrite valid_split, HO;
             [|intros k K1 K2 K3; rewrite type_step_get; destruct (String.eqb_spec k "type"); congruence];
             rewrite !type_step_get; cbn [String.eqb Ascii.eqb Bool.eqb]; rewrite EE, EC;
             fold (chk_type_opt (null_type (mget "type" m)) v); fold (chk_type_opt (mget "type" m) v);
             rewrite null_type_sem; cbn [chk_enum andb]; destruct (is_null v) eqn:Hv; cbn [orb andb];
             [now rewrite HN|reflexivity]).
      destruct (existsb (json_eqb JNull) e) eqn:EN.
      * rewrite json_eqb_null_in in EN. rewrite valid_split, HO.
        2:{ intros k K1 K2 K3. rewrite type_step_get. destruct (String.eqb_spec k "type"); congruence. }
        rewrite !type_step_get. cbn [String.eqb Ascii.eqb Bool.eqb]. rewrite EE, EC.
        fold (chk_type_opt (null_type (mget "type" m)) v). fold (chk_type_opt (mget "type" m) v).
        rewrite null_type_sem. cbn [chk_enum]. destruct (is_null v) eqn:Hv; cbn [orb andb]; [|reflexivity].
        rewrite (null_in_jeq e v EN Hv), HN by auto. reflexivity.
      * rewrite valid_split, HO.
        2:{ intros k K1 K2 K3. rewrite mget_mset, type_step_get.
            destruct (String.eqb_spec k "enum"); [congruence|]. destruct (String.eqb_spec k "type"); congruence. }
        rewrite !mget_mset, !type_step_get. cbn [String.eqb Ascii.eqb Bool.eqb]. rewrite EC.
        fold (chk_type_opt (null_type (mget "type" m)) v). fold (chk_type_opt (mget "type" m) v).
        rewrite null_type_sem. cbn [chk_enum]. rewrite existsb_app_one, jeq_null.
        destruct (is_null v) eqn:Hv; cbn [orb andb].
        -- rewrite orb_true_r, HN by auto. reflexivity.
        -- now rewrite orb_false_r.
    + rewrite valid_split, HO.
      2:{ intros k K1 K2 K3. rewrite type_step_get. destruct (String.eqb_spec k "type"); congruence. }
      rewrite !type_step_get. cbn [String.eqb Ascii.eqb Bool.eqb]. rewrite EE, EC.
      fold (chk_type_opt (null_type (mget "type" m)) v). fold (chk_type_opt (mget "type" m) v).
      rewrite null_type_sem. destruct (is_null v) eqn:Hv; cbn [orb andb]; [|reflexivity].
      now rewrite HN.
Qed.

(** When the rest of the schema accepts null: no "not", and formats do not constrain null. *)
Lemma other_accepts_null m :
  (forall f, e_fmt E f JNull = true) -> contains_immediate_subschema m = false ->
  mget "not" m = None ->
  valid D2020 E (JObj (other_keywords m)) JNull = true.
Proof.
  intros HF HI HN. apply valid_kw. intros k x Hx.
  assert (HM : mget k m = Some x /\ k <> "type" /\ k <> "enum" /\ k <> "const").
  { unfold other_keywords in Hx. rewrite !mget_mdel in Hx.
    destruct (String.eqb_spec k "const"); [discriminate|]. destruct (String.eqb_spec k "enum"); [discriminate|].
    destruct (String.eqb_spec k "type"); [discriminate|]. auto. }
  destruct HM as (HM & K1 & K2 & K3).
  assert (HI' : forall k', In k' immediate_keys -> mget k' m = None).
  { intros k' Hk'. unfold contains_immediate_subschema in HI.
    destruct (mget k' m) eqn:EM; [|reflexivity]. exfalso.
    assert (existsb (fun k => mhas k m) immediate_keys = true).
    { apply existsb_exists. exists k'. split; [exact Hk'|]. unfold mhas. now rewrite EM. }
    congruence. }
  assert (HD : forall k', In k' immediate_keys -> k <> k').
  { intros k' Hk' ->. rewrite HI' in HM by auto. discriminate. }
  assert (k <> "not") by congruence.
  unfold kw.
  destruct (String.eqb_spec k "$ref"); [exfalso; eapply HD; [|eassumption]; in_names|].
  destruct (String.eqb_spec k "type"); [congruence|].
  destruct (String.eqb_spec k "enum"); [congruence|].
  destruct (String.eqb_spec k "const"); [congruence|].
  destruct (existsb (String.eqb k) assertion_names).
  { unfold assertion.
    repeat (match goal with |- (if String.eqb k ?n then _ else _) = true => destruct (String.eqb k n);
       [destruct x; try reflexivity; try apply HF; repeat match goal with |- context [match ?b with _ => _ end] => destruct b end; reflexivity|] end).
    reflexivity. }
  destruct (String.eqb_spec k "allOf"); [exfalso; eapply HD; [|eassumption]; in_names|].
  destruct (String.eqb_spec k "anyOf"); [exfalso; eapply HD; [|eassumption]; in_names|].
  destruct (String.eqb_spec k "oneOf"); [exfalso; eapply HD; [|eassumption]; in_names|].
  destruct (String.eqb_spec k "not"); [congruence|].
  destruct (String.eqb_spec k "if"); [exfalso; eapply HD; [|eassumption]; in_names|].
  repeat (match goal with |- (if String.eqb k ?n then _ else _) = true => destruct (String.eqb k n);
       [reflexivity|] end).
  reflexivity.
Qed.

End Null.
