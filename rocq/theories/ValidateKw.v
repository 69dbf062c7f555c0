(** The meaning of 2020-12 schemas keyword by keyword: an object schema accepts an instance
    exactly if each of its keywords does. *)
From Coq Require Import String Ascii List ZArith NArith Bool Lia.
From Verif Require Import Json JsonFacts Utf8 Validate ValidateFacts.
Import ListNotations.
Open Scope string_scope.

Section Kw.
Variable E : env.

Notation dn := (eval D2020 E).

(** "x" read as a list / map of schemas *)
Definition den_list (x : json) : option (list (json -> result)) :=
  match x with JArr l => Some (map dn l) | _ => None end.
Definition den_map (x : json) : option (list (string * (json -> result))) :=
  match x with JObj m => Some (map (fun kv => (fst kv, dn (snd kv))) m) | _ => None end.

Definition subk (m : map_t) (k : string) : option sub := option_map (sub_of D2020 E) (mget k m).

(** Evaluated properties of an object schema, unevaluatedProperties apart. *)
Definition ev_of (m : map_t) (v : json) (k : string) : bool :=
  ev_main D2020 E (fun k => mget k m) (subk m) v k.

Definition kw (m : map_t) (k : string) (x v : json) : bool :=
  if String.eqb k "$ref" then chk_ref E (Some x) v
  else if String.eqb k "type" then chk_type D2020 (Some x) None v
  else if String.eqb k "enum" then chk_enum (Some x) v
  else if String.eqb k "const" then jeq v x
  else if existsb (String.eqb k) assertion_names then assertion E k x v
  else if String.eqb k "allOf" then chk_all (Some (sub_of D2020 E x)) v
  else if String.eqb k "anyOf" then chk_any (Some (sub_of D2020 E x)) v
  else if String.eqb k "oneOf" then chk_one (Some (sub_of D2020 E x)) v
  else if String.eqb k "not" then negb (valid D2020 E x v)
  else if String.eqb k "if" then chk_if (Some (sub_of D2020 E x)) (subk m "then") (subk m "else") v
  else if String.eqb k "prefixItems" then
    match v, x with JArr l, JArr xs => zip_ok (map dn xs) l | _, _ => true end
  else if String.eqb k "items" then
    match v with
    | JArr l => forallb (valid D2020 E x)
                  (skipn (match mget "prefixItems" m with Some (JArr xs) => List.length xs | _ => 0 end) l)
    | _ => true
    end
  else if String.eqb k "contains" then chk_contains (Some (sub_of D2020 E x)) v
  else if String.eqb k "properties" then chk_props (Some (sub_of D2020 E x)) v
  else if String.eqb k "patternProperties" then chk_patterns E (Some (sub_of D2020 E x)) v
  else if String.eqb k "additionalProperties" then
    chk_additional E (subk m "properties") (subk m "patternProperties") (Some (sub_of D2020 E x)) v
  else if String.eqb k "propertyNames" then chk_names (Some (sub_of D2020 E x)) v
  else if String.eqb k "dependentSchemas" then chk_dependent (Some (sub_of D2020 E x)) v
  else if String.eqb k "unevaluatedProperties" then
    chk_uneval (Some (sub_of D2020 E x)) (ev_of m v) v
  else true.

Definition kw_all (m : map_t) (k : string) (v : json) : bool :=
  match mget k m with Some x => kw m k x v | None => true end.

(** Keywords that can reject. *)
Definition kws : list string :=
  ["$ref"; "type"; "enum"; "const"] ++ assertion_names
  ++ ["allOf"; "anyOf"; "oneOf"; "not"; "if"; "prefixItems"; "items"; "contains"; "properties";
      "patternProperties"; "additionalProperties"; "propertyNames"; "dependentSchemas";
      "unevaluatedProperties"].

Lemma kw_other m k x v : ~ In k kws -> kw m k x v = true.
Proof.
  intros H. unfold kw.
  repeat match goal with
  | |- (if String.eqb k ?n then _ else _) = true =>
      destruct (String.eqb_spec k n); [subst; exfalso; apply H; in_names|]
  end.
  destruct (existsb (String.eqb k) assertion_names) eqn:Ha.
  { exfalso. apply existsb_exists in Ha as (n' & Hn & He). apply String.eqb_eq in He. subst n'.
    apply H. unfold kws. rewrite !in_app_iff. auto. }
  repeat match goal with
  | |- (if String.eqb k ?n then _ else _) = true =>
      destruct (String.eqb_spec k n); [subst; exfalso; apply H; in_names|]
  end.
  reflexivity.
Qed.

Lemma valid_forallb m v : valid D2020 E (JObj m) v = forallb (fun k => kw_all m k v) kws.
Proof.
  unfold valid. rewrite (feq_ok _ _ v (eval_JObj D2020 E m)). unfold eval_map, eval_obj.
  cbn [d_ref_alone D2020 andb ok d_uneval when].
  unfold chk_main. cbn [d_extra d_depend D2020 when]. unfold kws, assertion_names.
  cbn [forallb app]. unfold kw_all. unfold chk_assertions. cbn [assertion_names forallb].
  unfold subk.
  assert (HT : chk_type D2020 (mget "type" m) (mget "nullable" m) v
               = match mget "type" m with Some x => chk_type D2020 (Some x) None v | None => true end).
  { destruct (mget "type" m); reflexivity. }
  assert (HC : chk_const D2020 (mget "const" m) v = match mget "const" m with Some x => jeq v x | None => true end).
  { destruct (mget "const" m); reflexivity. }
  assert (HR : chk_ref E (mget "$ref" m) v = match mget "$ref" m with Some x => chk_ref E (Some x) v | None => true end).
  { destruct (mget "$ref" m); reflexivity. }
  assert (HEn : chk_enum (mget "enum" m) v = match mget "enum" m with Some x => chk_enum (Some x) v | None => true end).
  { destruct (mget "enum" m); reflexivity. }
  rewrite HT, HC, HR, HEn. clear HT HC HR HEn.
  assert (HI : chk_items D2020 (option_map (sub_of D2020 E) (mget "prefixItems" m))
     (option_map (sub_of D2020 E) (mget "items" m)) (option_map (sub_of D2020 E) (mget "additionalItems" m)) v
     = match mget "prefixItems" m with
       | Some x => match v, x with JArr l, JArr xs => zip_ok (map dn xs) l | _, _ => true end
       | None => true end
       && match mget "items" m with
          | Some x => match v with
            | JArr l => forallb (valid D2020 E x)
                  (skipn (match mget "prefixItems" m with Some (JArr xs) => List.length xs | _ => 0 end) l)
            | _ => true end
          | None => true end).
  { unfold chk_items. cbn [d_items D2020].
    destruct v; cbn; try (destruct (mget "prefixItems" m) as [[]|], (mget "items" m); reflexivity).
    f_equal.
    - destruct (mget "prefixItems" m) as [[]|]; try reflexivity; destruct l; reflexivity.
    - destruct (mget "items" m); [|reflexivity]. cbn. unfold all_ok, valid. cbn [s_den sub_of].
      destruct (mget "prefixItems" m) as [[]|]; cbn; try reflexivity. now rewrite map_length. }
  rewrite HI. clear HI.
  unfold kw. cbn [String.eqb Ascii.eqb Bool.eqb existsb assertion_names orb].
  assert (HN : chk_not (option_map (sub_of D2020 E) (mget "not" m)) v
    = match mget "not" m with Some x => negb (valid D2020 E x v) | None => true end).
  { destruct (mget "not" m); reflexivity. }
  rewrite HN. clear HN.
  assert (HA : chk_all (option_map (sub_of D2020 E) (mget "allOf" m)) v
    = match mget "allOf" m with Some x => chk_all (Some (sub_of D2020 E x)) v | None => true end)
    by (destruct (mget "allOf" m); reflexivity).
  assert (HB : chk_any (option_map (sub_of D2020 E) (mget "anyOf" m)) v
    = match mget "anyOf" m with Some x => chk_any (Some (sub_of D2020 E x)) v | None => true end)
    by (destruct (mget "anyOf" m); reflexivity).
  assert (HO : chk_one (option_map (sub_of D2020 E) (mget "oneOf" m)) v
    = match mget "oneOf" m with Some x => chk_one (Some (sub_of D2020 E x)) v | None => true end)
    by (destruct (mget "oneOf" m); reflexivity).
  assert (HIf : chk_if (option_map (sub_of D2020 E) (mget "if" m)) (option_map (sub_of D2020 E) (mget "then" m))
       (option_map (sub_of D2020 E) (mget "else" m)) v
    = match mget "if" m with Some x => chk_if (Some (sub_of D2020 E x)) (subk m "then") (subk m "else") v | None => true end)
    by (destruct (mget "if" m); reflexivity).
  assert (HCo : chk_contains (option_map (sub_of D2020 E) (mget "contains" m)) v
    = match mget "contains" m with Some x => chk_contains (Some (sub_of D2020 E x)) v | None => true end)
    by (destruct (mget "contains" m), v; reflexivity).
  assert (HP : chk_props (option_map (sub_of D2020 E) (mget "properties" m)) v
    = match mget "properties" m with Some x => chk_props (Some (sub_of D2020 E x)) v | None => true end)
    by (destruct (mget "properties" m), v; reflexivity).
  assert (HPP : chk_patterns E (option_map (sub_of D2020 E) (mget "patternProperties" m)) v
    = match mget "patternProperties" m with Some x => chk_patterns E (Some (sub_of D2020 E x)) v | None => true end)
    by (destruct (mget "patternProperties" m), v; reflexivity).
  assert (HAP : chk_additional E (option_map (sub_of D2020 E) (mget "properties" m))
      (option_map (sub_of D2020 E) (mget "patternProperties" m))
      (option_map (sub_of D2020 E) (mget "additionalProperties" m)) v
    = match mget "additionalProperties" m with
      | Some x => chk_additional E (subk m "properties") (subk m "patternProperties") (Some (sub_of D2020 E x)) v
      | None => true end)
    by (destruct (mget "additionalProperties" m), v; reflexivity).
  assert (HNa : chk_names (option_map (sub_of D2020 E) (mget "propertyNames" m)) v
    = match mget "propertyNames" m with Some x => chk_names (Some (sub_of D2020 E x)) v | None => true end)
    by (destruct (mget "propertyNames" m), v; reflexivity).
  assert (HD : chk_dependent (option_map (sub_of D2020 E) (mget "dependentSchemas" m)) v
    = match mget "dependentSchemas" m with Some x => chk_dependent (Some (sub_of D2020 E x)) v | None => true end)
    by (destruct (mget "dependentSchemas" m), v; reflexivity).
  assert (HU : chk_uneval (option_map (sub_of D2020 E) (mget "unevaluatedProperties" m))
      (ev_main D2020 E (fun k => mget k m) (fun k => option_map (sub_of D2020 E) (mget k m)) v) v
    = match mget "unevaluatedProperties" m with
      | Some x => chk_uneval (Some (sub_of D2020 E x)) (ev_of m v) v | None => true end)
    by (destruct (mget "unevaluatedProperties" m), v; reflexivity).
  rewrite HA, HB, HO, HIf, HCo, HP, HPP, HAP, HNa, HD, HU.
  clear. rewrite !andb_true_r, !andb_assoc.
  repeat match goal with |- context [match mget ?k m with _ => _ end] =>
    let b := fresh "b" in
    match goal with |- context [match mget k m with Some x => @?f x | None => true end] =>
      set (b := match mget k m with Some x => f x | None => true end) end end.
  reflexivity.
Qed.

(** The form used in proofs. *)
Lemma valid_kw m v :
  valid D2020 E (JObj m) v = true <-> forall k x, mget k m = Some x -> kw m k x v = true.
Proof.
  rewrite valid_forallb, forallb_forall. split.
  - intros H k x Hx. destruct (in_dec string_dec k kws) as [Hk|Hk]; [|now apply kw_other].
    specialize (H k Hk). unfold kw_all in H. now rewrite Hx in H.
  - intros H k Hk. unfold kw_all. destruct (mget k m) eqn:Hx; auto.
Qed.

(** Reading off a list of entries. *)
Lemma valid_entries m v : NoDup (map fst m) ->
  valid D2020 E (JObj m) v = forallb (fun kv => kw m (fst kv) (snd kv) v) m.
Proof.
  intros ND. apply eq_true_iff_eq. rewrite valid_kw, forallb_forall. split.
  - intros H [k x] Hin. apply H. now apply NoDup_mget.
  - intros H k x Hx. apply (H (k, x)). now apply mget_In.
Qed.

(** ** Taking a keyword out *)
(** Keywords that other keywords look at. *)
Definition ctx : list string :=
  ["$ref"; "allOf"; "anyOf"; "oneOf"; "if"; "then"; "else"; "prefixItems"; "properties";
   "patternProperties"; "additionalProperties"; "dependentSchemas"].

Lemma ev_of_ext m m' v k : (forall c, In c ctx -> mget c m = mget c m') -> ev_of m v k = ev_of m' v k.
Proof.
  intros H. unfold ev_of, ev_main, subk. cbn [d_extra d_depend D2020 when].
  now rewrite !H by in_names.
Qed.

Lemma kw_ext m m' k x v : (forall c, In c ctx -> mget c m = mget c m') -> kw m k x v = kw m' k x v.
Proof.
  intros H. unfold kw, subk. rewrite !(H "then"), !(H "else"), !(H "prefixItems"), !(H "properties"),
    !(H "patternProperties") by in_names.
  assert (HU : chk_uneval (Some (sub_of D2020 E x)) (ev_of m v) v
             = chk_uneval (Some (sub_of D2020 E x)) (ev_of m' v) v).
  { apply chk_uneval_eq; auto. intros k'. now apply ev_of_ext. }
  now rewrite HU.
Qed.

Lemma valid_out k m v : ~ In k ctx ->
  valid D2020 E (JObj m) v = kw_all m k v && valid D2020 E (JObj (mdel k m)) v.
Proof.
  intros Hk.
  assert (HC : forall c, In c ctx -> mget c (mdel k m) = mget c m).
  { intros c Hc. rewrite mget_mdel. destruct (String.eqb_spec c k); [congruence|reflexivity]. }
  apply eq_true_iff_eq. rewrite andb_true_iff, !valid_kw. unfold kw_all. split.
  - intros H. split.
    + destruct (mget k m) eqn:Hx; auto.
    + intros k' x Hx. rewrite (kw_ext _ m) by exact HC. apply H.
      rewrite mget_mdel in Hx. destruct (String.eqb k' k); congruence.
  - intros [H1 H2] k' x Hx. destruct (String.eqb_spec k' k) as [->|HN].
    + now rewrite Hx in H1.
    + rewrite <- (kw_ext (mdel k m)) by exact HC. apply H2.
      rewrite mget_mdel. destruct (String.eqb_spec k' k); congruence.
Qed.

(** Setting a keyword. *)
Lemma valid_set k x m v : ~ In k ctx ->
  valid D2020 E (JObj (mset k x m)) v = kw m k x v && valid D2020 E (JObj (mdel k m)) v.
Proof.
  intros Hk.
  assert (HC : forall c, In c ctx -> mget c (mset k x m) = mget c m).
  { intros c Hc. rewrite mget_mset. destruct (String.eqb_spec c k); [congruence|reflexivity]. }
  rewrite (valid_out k) by exact Hk. f_equal.
  - unfold kw_all. rewrite mget_mset, String.eqb_refl. now apply kw_ext.
  - apply feq_ok, eval_lookup_eq. intros c _. rewrite !mget_mdel, mget_mset.
    now destruct (String.eqb c k).
Qed.

Lemma valid_lookup m m' v : (forall k, mget k m = mget k m') ->
  valid D2020 E (JObj m) v = valid D2020 E (JObj m') v.
Proof. intros H. apply feq_ok, eval_lookup_eq. auto. Qed.

Lemma valid_bool b v : valid D2020 E (JBool b) v = b.
Proof. reflexivity. Qed.

End Kw.
