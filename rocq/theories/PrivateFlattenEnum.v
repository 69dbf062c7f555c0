(** A flattened externally tagged enum: what the struct's schema accepts. *)
From Coq Require Import String Ascii List ZArith NArith Bool Lia.
From Verif Require Import Json JsonFacts Utf8 SchemaApi Validate ValidateFacts ValidateKw Transform Private PrivateProps
  PrivateFlatten PrivateForFlatten.
Import ListNotations.
Open Scope string_scope.
Open Scope list_scope.

(** The schema the derive macro builds for such an enum: its unit variants and the others, with the
    schemas of their contents *)
Definition enum_schema (units : list string) (news : list (string * json)) : json :=
  match news, units with
  | [], _ => unit_enum units
  | _, [] => JObj [("oneOf", JArr (map (fun ns => new_externally_tagged_enum_variant (fst ns) (snd ns)) news))]
  | _, _ => JObj [("oneOf", JArr (unit_enum units :: map (fun ns => new_externally_tagged_enum_variant (fst ns) (snd ns)) news))]
  end.
(** All variants, as they are written when the enum is flattened *)
Definition variants_of (units : list string) (news : list (string * json)) : list (string * json) :=
  news ++ map (fun u => (u, JObj [("type", JStr "null")])) units.

Definition opened (ns : string * json) : json :=
  JObj [("properties", JObj [ns]); ("required", JArr [JStr (fst ns)]); ("type", JStr "object")].

Lemma allow_unknown_opened n ns d : allow_unknown_n n (opened ns) d = (opened ns, d).
Proof.
  destruct n as [|n]; [reflexivity|]. unfold opened. cbn [allow_unknown_n]. unfold get_is_false. cbn [s_get mget String.eqb Ascii.eqb Bool.eqb].
  apply immediate_none. intros k Hk. cbn in Hk. repeat (destruct Hk as [<-|Hk]; [reflexivity|]). destruct Hk.
Qed.
Lemma allow_unknown_ext n ns d : exists d', allow_unknown_n (S n) (new_externally_tagged_enum_variant (fst ns) (snd ns)) d = (opened ns, d').
Proof.
  destruct ns as [k s]. exists true.
  change (new_externally_tagged_enum_variant (fst (k, s)) (snd (k, s)))
    with (JObj [("additionalProperties", JBool false); ("properties", JObj [(k, s)]); ("required", JArr [JStr k]); ("type", JStr "object")]).
  cbn [allow_unknown_n]. unfold get_is_false. cbn [s_get mget s_remove mdel fst String.eqb Ascii.eqb Bool.eqb].
  apply immediate_none. intros c Hc. cbn in Hc. repeat (destruct Hc as [<-|Hc]; [reflexivity|]). destruct Hc.
Qed.

Lemma try_arr_variants n news units d : exists d',
  try_arr (allow_unknown_n (S n)) (JArr (map (fun ns => new_externally_tagged_enum_variant (fst ns) (snd ns)) news ++ map flattened_unit_variant units)) d
  = (JArr (map opened (variants_of units news)), d').
Proof.
  unfold try_arr.
  assert (H : exists d', map_st (try_sub (allow_unknown_n (S n))) (map (fun ns => new_externally_tagged_enum_variant (fst ns) (snd ns)) news ++ map flattened_unit_variant units) d
    = (map opened (variants_of units news), d')).
  { revert d. induction news as [|ns news IH]; intros d.
    - exists d. unfold variants_of. cbn [map app]. induction units as [|u units IH]; [reflexivity|]. cbn [map map_st]. unfold try_sub at 1.
      change (flattened_unit_variant u) with (opened (u, JObj [("type", JStr "null")])).
      change (is_schema (opened _)) with true. cbv iota. rewrite allow_unknown_opened. cbn [map] in IH. rewrite IH. reflexivity.
    - cbn [map app map_st]. unfold try_sub at 1. change (is_schema (new_externally_tagged_enum_variant (fst ns) (snd ns))) with true. cbv iota.
      destruct (allow_unknown_ext n ns d) as [d1 ->]. destruct (IH d1) as [d2 ->]. exists d2. reflexivity. }
  destruct H as [d' ->]. eauto.
Qed.

Lemma allow_one n news units d : exists d',
  allow_unknown_n (S (S n)) (JObj [("oneOf", JArr (map (fun ns => new_externally_tagged_enum_variant (fst ns) (snd ns)) news ++ map flattened_unit_variant units))]) d
  = (JObj [("oneOf", JArr (map opened (variants_of units news)))], d').
Proof.
  remember (S n) as n1 eqn:E1. cbn [allow_unknown_n]. unfold get_is_false. cbn [s_get mget String.eqb Ascii.eqb Bool.eqb].
  unfold transform_immediate_subschemas_st. cbn [map_st fst snd]. change (immediate_shape "oneOf") with Many. cbn [sub_value]. subst n1.
  destruct (try_arr_variants n news units d) as [d' ->]. eauto.
Qed.

Definition prepared (opt : bool) (l : list json) : json :=
  if opt then JObj [("anyOf", JArr [JObj [("oneOf", JArr l)]; JObj []])] else JObj [("oneOf", JArr l)].

Lemma for_flatten_enum units news opt : for_flatten (enum_schema units news) opt = prepared opt (map opened (variants_of units news)).
Proof.
  assert (HF : forall vs, flat_map (fun v => match v with JStr x => [flattened_unit_variant x] | _ => [] end) (map JStr vs) = map flattened_unit_variant vs).
  { induction vs as [|v vs IH]; [reflexivity|]. cbn. now rewrite IH. }
  set (raw := map (fun ns => new_externally_tagged_enum_variant (fst ns) (snd ns)) news ++ map flattened_unit_variant units).
  assert (H : for_flatten (enum_schema units news) opt = fst (allow_unknown (prepared opt raw))).
  { unfold for_flatten.
    assert (HR : exists s1 uv, remove_unit_variants (enum_schema units news) = (s1, uv)
      /\ match uv with
         | Some vs =>
             let m := ensure_obj s1 in
             let m := if mhas "oneOf" m then m else mset "oneOf" (JArr []) m in
             match mget "oneOf" m with
             | Some (JArr l) => JObj (mset "oneOf" (JArr (l ++ flat_map (fun v => match v with JStr x => [flattened_unit_variant x] | _ => [] end) vs)) m)
             | _ => JObj m
             end
         | None => s1
         end = JObj [("oneOf", JArr raw)]).
    { unfold enum_schema. destruct news as [|n0 news0] eqn:EN.
      - eexists _, _. split; [reflexivity|]. cbv zeta. cbn [ensure_obj ensure_object mhas mget mset String.eqb Ascii.eqb Bool.eqb app fst s_remove mdel].
        now rewrite HF.
      - rewrite <- EN in *. assert (EM : map (fun ns => new_externally_tagged_enum_variant (fst ns) (snd ns)) news <> []) by (subst news; discriminate).
        destruct units as [|u us].
        + eexists _, _. split; [unfold remove_unit_variants, get_is_str; cbn [s_get mget String.eqb Ascii.eqb Bool.eqb]|].
          * subst news. cbn [map]. reflexivity.
          * cbn [map] in raw. unfold raw. now rewrite app_nil_r.
        + eexists _, _. split; [unfold remove_unit_variants, get_is_str; cbn [s_get mget String.eqb Ascii.eqb Bool.eqb]|].
          * subst news. reflexivity.
          * subst news. cbv zeta. cbn [fst s_get_mut_set s_get mget mhas mset mupd ensure_obj String.eqb Ascii.eqb Bool.eqb].
            rewrite HF. reflexivity. }
    destruct HR as (s1 & uv & -> & HR). cbv zeta in HR |- *. rewrite HR. destruct opt; reflexivity. }
  rewrite H. clear H. unfold allow_unknown, prepared. destruct opt.
  - assert (HD : exists n, depth (JObj [("anyOf", JArr [JObj [("oneOf", JArr raw)]; JObj []])]) = S (S (S n))).
    { set (r := depth (JArr raw)). exists r. assert (HR : 0 < r) by apply depth_pos. cbn [depth fold_right snd] in *. fold r.
      change (S (fold_right (fun x n => Nat.max (depth x) n) 0 raw)) with (depth (JArr raw)). fold r. lia. }
    destruct HD as [n ->]. remember (S (S n)) as n1 eqn:E1. cbn [allow_unknown_n]. unfold get_is_false. cbn [s_get mget String.eqb Ascii.eqb Bool.eqb].
    unfold transform_immediate_subschemas_st. cbn [map_st fst snd]. change (immediate_shape "anyOf") with Many. cbn [sub_value try_arr map_st].
    unfold try_sub. cbn [is_schema]. subst n1. destruct (allow_one n news units false) as [d' HA]. fold raw in HA. rewrite HA.
    cbn [allow_unknown_n]. unfold get_is_false. cbn [s_get mget]. reflexivity.
  - assert (HD : exists n, depth (JObj [("oneOf", JArr raw)]) = S (S n)).
    { exists (depth (JArr raw) - 1). pose proof (depth_pos (JArr raw)). cbn [depth fold_right snd] in *. lia. }
    destruct HD as [n ->]. destruct (allow_one n news units false) as [d' HA]. fold raw in HA. now rewrite HA.
Qed.

Section Sem.
Variable E : env.

(** The variants whose content is found in the object *)
Definition held (vs : list (string * json)) (o : map_t) : list string :=
  map fst (filter (fun ns => match mget (fst ns) o with Some x => valid D2020 E (snd ns) x | None => false end) vs).
Definition only (h : list string) (k : string) : bool := match h with [n] => String.eqb k n | _ => false end.

Lemma opened_shape ns : object_shape [("properties", JObj [ns]); ("required", JArr [JStr (fst ns)]); ("type", JStr "object")].
Proof.
  split; [|repeat split; right; try eexists; reflexivity]. intros k Hk HN. cbn [mget] in HN.
  destruct (String.eqb_spec k "properties") as [->|]; [in_names|].
  destruct (String.eqb_spec k "required") as [->|]; [in_names|].
  destruct (String.eqb_spec k "type") as [->|]; [in_names|now elim HN].
Qed.
Lemma opened_valid ns o : NoDup (map fst o) ->
  valid D2020 E (opened ns) (JObj o) = match mget (fst ns) o with Some x => valid D2020 E (snd ns) x | None => false end.
Proof.
  intros ND. unfold opened. rewrite (valid_shape E) by apply opened_shape. destruct ns as [n s].
  unfold props_of, required_of, additional_ok. cbn [mget String.eqb Ascii.eqb Bool.eqb fst snd required_ok forallb]. rewrite !andb_true_r.
  unfold mhas. destruct (mget n o) as [x|] eqn:EX; [|apply andb_false_r]. rewrite andb_true_r. cbn [props_ok].
  apply eq_true_iff_eq. rewrite forallb_forall. split.
  - intros H. apply mget_In in EX. specialize (H _ EX). cbn [fst snd mget] in H. now rewrite String.eqb_refl in H.
  - intros H [k y] Hin. cbn [fst snd mget]. destruct (String.eqb_spec k n) as [->|]; [|reflexivity].
    apply (NoDup_mget _ _ _ ND) in Hin. congruence.
Qed.
Lemma opened_evs ns o k : NoDup (map fst o) ->
  evs (eval D2020 E (opened ns) (JObj o)) k = valid D2020 E (opened ns) (JObj o) && String.eqb k (fst ns).
Proof.
  intros ND. unfold evs, valid.
  destruct (eval_JObj D2020 E [("properties", JObj [ns]); ("required", JArr [JStr (fst ns)]); ("type", JStr "object")] (JObj o)) as [H1 H2].
  change (JObj [("properties", JObj [ns]); ("required", JArr [JStr (fst ns)]); ("type", JStr "object")]) with (opened ns) in *.
  rewrite H2. destruct (ok (eval D2020 E (opened ns) (JObj o))) eqn:EO; [|reflexivity]. cbn [andb].
  unfold eval_map, eval_obj in *. cbn [d_ref_alone D2020 andb mget String.eqb Ascii.eqb Bool.eqb ok ev option_map when d_uneval is_some orb] in *.
  rewrite <- H1. cbn [andb]. unfold ev_main. cbn [mget String.eqb Ascii.eqb Bool.eqb option_map when d_extra d_depend D2020 is_some].
  rewrite in_props_den. unfold mhas. cbn [mget]. destruct ns as [n s]. cbn [fst mget]. now destruct (String.eqb k n).
Qed.

Lemma one_sem vs o : NoDup (map fst o) ->
  chk_one (Some (sub_of D2020 E (JArr (map opened vs)))) (JObj o) = Nat.eqb (List.length (held vs o)) 1.
Proof.
  intros ND. unfold chk_one, count_ok, held. cbn [arr_of sub_of s_arr]. f_equal. rewrite map_length.
  induction vs as [|ns vs IH]; [reflexivity|]. cbn [map filter]. fold (valid D2020 E (opened ns) (JObj o)).
  rewrite opened_valid by exact ND. destruct (mget (fst ns) o) as [x|]; [|exact IH]. destruct (valid D2020 E (snd ns) x); cbn [List.length]; congruence.
Qed.
Lemma one_evs vs o k : NoDup (map fst o) -> List.length (held vs o) = 1 ->
  ev_list (Some (sub_of D2020 E (JArr (map opened vs)))) (JObj o) k = only (held vs o) k.
Proof.
  intros ND HL. assert (HX : ev_list (Some (sub_of D2020 E (JArr (map opened vs)))) (JObj o) k = existsb (String.eqb k) (held vs o)).
  { clear HL. unfold ev_list, held. cbn [arr_of sub_of s_arr]. induction vs as [|ns vs IH]; [reflexivity|]. cbn [map existsb filter].
    rewrite opened_evs, opened_valid by exact ND. rewrite IH. destruct (mget (fst ns) o) as [x|]; [|reflexivity].
    destruct (valid D2020 E (snd ns) x); reflexivity. }
  rewrite HX. destruct (held vs o) as [|n [|]]; try discriminate. cbn. apply orb_false_r.
Qed.

(** ** The merged schema *)
Definition part_key (opt : bool) : string := if opt then "anyOf" else "oneOf".
Definition part_value (opt : bool) (l : list json) : json :=
  if opt then JArr [JObj [("oneOf", JArr l)]; JObj []] else JArr l.
Lemma prepared_eq opt l : prepared opt l = JObj [(part_key opt, part_value opt l)].
Proof. now destruct opt. Qed.

Lemma one_valid vs o : NoDup (map fst o) ->
  valid D2020 E (JObj [("oneOf", JArr (map opened vs))]) (JObj o) = Nat.eqb (List.length (held vs o)) 1.
Proof. intros ND. rewrite single_sem by in_names. exact (one_sem vs o ND). Qed.

Lemma only_none vs o k : Nat.eqb (List.length (held vs o)) 1 = false -> only (held vs o) k = false.
Proof. destruct (held vs o) as [|n [|]]; [reflexivity|discriminate|reflexivity]. Qed.

Lemma part_evs opt vs o k : NoDup (map fst o) -> (opt || Nat.eqb (List.length (held vs o)) 1 = true) ->
  ev_list (Some (sub_of D2020 E (part_value opt (map opened vs)))) (JObj o) k = only (held vs o) k.
Proof.
  intros ND HL. destruct opt; cbn [part_value orb] in *; [|now apply one_evs; [|apply PeanoNat.Nat.eqb_eq]].
  unfold ev_list. cbn [arr_of sub_of s_arr map existsb]. rewrite orb_false_r.
  pose proof (one_valid vs o ND) as HV. unfold evs. unfold valid in HV. rewrite HV.
  destruct (Nat.eqb (List.length (held vs o)) 1) eqn:EL; [|symmetry; now apply only_none]. cbn [andb].
  destruct (eval_JObj D2020 E [("oneOf", JArr (map opened vs))] (JObj o)) as [H1 H2]. rewrite H2. rewrite H1 in HV.
  unfold eval_map, eval_obj in *.
  cbn [d_ref_alone D2020 andb mget String.eqb Ascii.eqb Bool.eqb ok ev option_map when d_uneval is_some orb] in *.
  rewrite HV. cbn [andb]. unfold ev_main. cbn [mget String.eqb Ascii.eqb Bool.eqb option_map when d_extra d_depend D2020 is_some].
  cbn [in_props in_patterns obj_of ev_ref ev_if ev_dependent orb]. rewrite !orb_false_r.
  change (ev_list None (JObj o) k) with false. cbn [orb]. apply one_evs; [exact ND|now apply PeanoNat.Nat.eqb_eq].
Qed.

Lemma part_sem opt vs o : NoDup (map fst o) ->
  kw1 E (part_key opt) (part_value opt (map opened vs)) (JObj o) = opt || Nat.eqb (List.length (held vs o)) 1.
Proof.
  intros ND. destruct opt; cbn [part_key part_value orb].
  - unfold kw1, kw. cbn [String.eqb Ascii.eqb Bool.eqb existsb assertion_names orb]. unfold chk_any. cbn [arr_of sub_of s_arr map existsb].
    destruct (eval_empty D2020 E (JObj o)) as [-> _]. cbn. now rewrite orb_true_r.
  - exact (one_sem vs o ND).
Qed.

Definition others_held (m1 : map_t) (h : list string) (o : map_t) : bool :=
  match mget "additionalProperties" m1 with
  | Some a => forallb (fun kx => mhas (fst kx) (props_of m1) || only h (fst kx) || valid D2020 E a (snd kx)) o
  | None => true
  end.

Theorem flatten_enum m1 units news opt o :
  object_shape m1 -> NoDup (map fst o) ->
  valid D2020 E (flatten (JObj m1) (for_flatten (enum_schema units news) opt)) (JObj o)
  = valid D2020 E (JObj (without_additional m1)) (JObj o)
    && (opt || Nat.eqb (List.length (held (variants_of units news) o)) 1)
    && others_held m1 (held (variants_of units news) o) o.
Proof.
  intros HS ND. rewrite for_flatten_enum, prepared_eq. set (vs := variants_of units news). set (key := part_key opt). set (x := part_value opt (map opened vs)).
  assert (HA : forall k, In k ["if"; "items"; "allOf"; "anyOf"; "oneOf"; "$ref"; "patternProperties"; "dependentSchemas"; "unevaluatedProperties"] -> mget k m1 = None).
  { intros k Hk. apply shape_absent; [exact HS| |].
    - cbn in Hk. repeat (destruct Hk as [<-|Hk]; [in_names|]). destruct Hk.
    - cbn in Hk. intros HO. cbn in HO.
      repeat (destruct Hk as [<-|Hk]; [repeat (destruct HO as [HO|HO]; [discriminate|]); exact HO|]). exact Hk. }
  assert (HK : In key ["oneOf"; "anyOf"]) by (unfold key; destruct opt; cbn; auto).
  set (u := match mget "additionalProperties" m1 with Some ap => mset "unevaluatedProperties" ap (without_additional m1) | None => m1 end).
  assert (HN : normalise m1 [(key, x)] = u).
  { unfold normalise, u. destruct (mget "additionalProperties" m1); [|reflexivity].
    assert (HC : contains_immediate_subschema [(key, x)] = true) by (unfold key; destruct opt; reflexivity). rewrite HC, orb_true_r. reflexivity. }
  assert (HU : forall c, c <> "additionalProperties" -> c <> "unevaluatedProperties" -> mget c u = mget c m1).
  { intros c N1 N2. unfold u. destruct (mget "additionalProperties" m1); [|reflexivity]. unfold without_additional. rewrite mget_mset, mget_mdel.
    destruct (String.eqb_spec c "unevaluatedProperties"); [congruence|]. destruct (String.eqb_spec c "additionalProperties"); congruence. }
  assert (HUA : mget "additionalProperties" u = None).
  { unfold u. destruct (mget "additionalProperties" m1) eqn:EA; [|exact EA]. unfold without_additional. rewrite mget_mset, mget_mdel. reflexivity. }
  assert (HF : flatten (JObj m1) (JObj [(key, x)]) = JObj (mset key x u)).
  { unfold flatten. change (ensure_obj (JObj m1)) with m1. rewrite HN. cbv zeta.
    assert (HX : mget "additionalProperties" [(key, x)] = None) by (unfold key; destruct opt; reflexivity).
    unfold normalise. rewrite HX. cbn [fold_left fst snd]. unfold flatten_property.
    assert (HM : mem key ["oneOf"; "anyOf"] = true) by now apply mem_In. rewrite HM.
    rewrite HU, HA; [reflexivity| | |]; unfold key; destruct opt; try discriminate; in_names. }
  rewrite HF, (valid_out E "unevaluatedProperties") by (cbn; intuition discriminate).
  assert (HV : valid D2020 E (JObj (mdel "unevaluatedProperties" (mset key x u))) (JObj o)
    = (opt || Nat.eqb (List.length (held vs o)) 1) && valid D2020 E (JObj (without_additional m1)) (JObj o)).
  { rewrite (valid_lookup E _ (mset key x (without_additional m1))).
    - rewrite valid_mset_alone.
      + unfold key, x. rewrite part_sem by exact ND. f_equal. apply valid_mdel_none. unfold without_additional. rewrite mget_mdel.
        destruct opt; cbn [part_key String.eqb Ascii.eqb Bool.eqb]; apply HA; in_names.
      + unfold indep, key. destruct opt; cbn; intuition discriminate.
      + intros c Hc. unfold without_additional. rewrite mget_mdel. cbn in Hc.
        destruct Hc as [<-|[<-|[<-|[<-|[]]]]]; cbn [String.eqb Ascii.eqb Bool.eqb]; try reflexivity; apply HA; in_names.
    - intros c. unfold without_additional. rewrite mget_mdel, !mget_mset, mget_mdel.
      destruct (String.eqb_spec c "unevaluatedProperties") as [->|N1].
      { assert (NK : String.eqb "unevaluatedProperties" key = false) by (unfold key; destruct opt; reflexivity). rewrite NK. cbn [String.eqb Ascii.eqb Bool.eqb].
        symmetry. apply HA. in_names. }
      destruct (String.eqb c key); [reflexivity|]. destruct (String.eqb_spec c "additionalProperties") as [->|N2]; [exact HUA|now apply HU]. }
  rewrite HV. destruct (opt || Nat.eqb (List.length (held vs o)) 1) eqn:EH; [|cbn [andb]; rewrite !andb_false_r; reflexivity].
  cbn [andb]. rewrite andb_true_r, andb_comm. f_equal.
  unfold kw_all, others_held. rewrite mget_mset.
  assert (NK : String.eqb "unevaluatedProperties" key = false) by (unfold key; destruct opt; reflexivity). rewrite NK. unfold u at 1.
  destruct (mget "additionalProperties" m1) as [a|] eqn:EA; [|rewrite (HA "unevaluatedProperties") by in_names; reflexivity].
  rewrite mget_mset. cbn [String.eqb Ascii.eqb Bool.eqb]. unfold kw. cbn [String.eqb Ascii.eqb Bool.eqb existsb assertion_names orb].
  unfold chk_uneval. apply forallb_eq. intros [k y] _. cbn [fst snd]. f_equal.
  destruct HS as (_ & _ & HP & _).
  assert (HG : forall c, In c ["if"; "items"; "allOf"; "$ref"; "patternProperties"; "dependentSchemas"; "properties"] -> mget c (mset key x u) = mget c m1).
  { intros c Hc. rewrite mget_mset. assert (NC : String.eqb c key = false).
    { unfold key. cbn in Hc. repeat (destruct Hc as [<-|Hc]; [destruct opt; reflexivity|]). destruct Hc. }
    rewrite NC. apply HU; cbn in Hc; repeat (destruct Hc as [<-|Hc]; [discriminate|]); destruct Hc. }
  assert (HGA : mget "additionalProperties" (mset key x u) = None).
  { rewrite mget_mset. assert (NC : String.eqb "additionalProperties" key = false) by (unfold key; destruct opt; reflexivity). now rewrite NC. }
  unfold ev_of, ev_main, subk. cbn [d_extra d_depend D2020 when].
  rewrite (HG "if"), (HA "if"), (HG "allOf"), (HA "allOf"), (HG "$ref"), (HA "$ref"), (HG "patternProperties"), (HA "patternProperties"),
    (HG "dependentSchemas"), (HA "dependentSchemas"), (HG "properties"), HGA by in_names.
  change (option_map (sub_of D2020 E) (mget "properties" m1)) with (subk E m1 "properties"). rewrite (in_props_of E) by exact HP.
  cbn [option_map in_patterns obj_of is_some ev_ref ev_if ev_dependent ev_list arr_of orb]. rewrite !orb_false_r.
  rewrite <- (part_evs opt vs o k ND EH). fold x.
  assert (HKX : mget key (mset key x u) = Some x) by (rewrite mget_mset, String.eqb_refl; reflexivity).
  unfold key in *. clear HF HV HN. destruct opt; cbn [part_key] in *.
  - rewrite HKX. cbn [option_map]. assert (HO : mget "oneOf" (mset "anyOf" x u) = None).
    { rewrite mget_mset. cbn [String.eqb Ascii.eqb Bool.eqb]. rewrite HU by discriminate. apply HA. in_names. }
    rewrite HO. cbn [option_map ev_list arr_of]. now rewrite orb_false_r.
  - rewrite HKX. cbn [option_map]. assert (HO : mget "anyOf" (mset "oneOf" x u) = None).
    { rewrite mget_mset. cbn [String.eqb Ascii.eqb Bool.eqb]. rewrite HU by discriminate. apply HA. in_names. }
    rewrite HO. cbn [option_map ev_list arr_of]. now rewrite orb_false_r.
Qed.

Lemma held_one vs o n s x : NoDup (map fst vs) -> In (n, s) vs -> (forall k, In k (map fst vs) -> mget k o = None) ->
  held vs (mset n x o) = if valid D2020 E s x then [n] else [].
Proof.
  intros ND HI HN. unfold held.
  assert (H0 : forall vs, (forall k, In k (map fst vs) -> k <> n /\ mget k o = None) ->
    filter (fun ns => match mget (fst ns) (mset n x o) with Some y => valid D2020 E (snd ns) y | None => false end) vs = []).
  { clear. induction vs as [|[k y] vs IH]; intros H; [reflexivity|]. cbn [filter fst snd]. rewrite mget_mset.
    destruct (H k (or_introl eq_refl)) as [N HO]. destruct (String.eqb_spec k n); [contradiction|]. rewrite HO. apply IH. intros c Hc. apply H. now right. }
  revert ND HI HN. induction vs as [|[k y] vs IH]; intros ND HI HN; [destruct HI|].
  cbn [map fst] in ND. apply NoDup_cons_iff in ND as [N1 N2]. cbn [filter fst snd]. rewrite mget_mset.
  destruct HI as [[= -> ->]|HI].
  - rewrite String.eqb_refl, H0.
    + now destruct (valid D2020 E s x).
    + intros k Hk. split; [congruence|]. apply HN. now right.
  - destruct (String.eqb_spec k n) as [->|]; [elim N1; apply (in_map fst) in HI; exact HI|].
    rewrite (HN k (or_introl eq_refl)). apply IH; auto. intros c Hc. apply HN. now right.
Qed.

Lemma flatten_enum_value m1 units news opt o n s x :
  object_shape m1 -> sorted_keys (map fst o) = true ->
  NoDup (map fst (variants_of units news)) -> In (n, s) (variants_of units news) ->
  (forall k, In k (map fst (variants_of units news)) -> mget k o = None /\ mhas k (props_of m1) = false) ->
  (mget "additionalProperties" m1 = None \/ mget "additionalProperties" m1 = Some (JBool false)) ->
  valid D2020 E (JObj m1) (JObj o) = true ->
  valid D2020 E (flatten (JObj m1) (for_flatten (enum_schema units news) opt)) (JObj (mset n x o))
  = opt && negb (mhas "additionalProperties" m1) || valid D2020 E s x.
Proof.
  intros HS SO ND HI HN HA HV. assert (SM : sorted_keys (map fst (mset n x o)) = true) by now apply sorted_mset.
  rewrite flatten_enum by (auto using sorted_NoDup). rewrite (held_one _ o n s x ND HI) by (intros k Hk; now apply HN).
  rewrite (valid_shape E) in HV by exact HS. apply andb_true_iff in HV as [HV HV3]. apply andb_true_iff in HV as [HV1 HV2].
  assert (Hn : mget n o = None /\ mhas n (props_of m1) = false) by (apply HN; apply (in_map fst) in HI; exact HI). destruct Hn as [Hn1 Hn2].
  assert (HIn : forall k y, In (k, y) (mset n x o) -> k = n \/ In (k, y) o).
  { intros k y Hin. apply NoDup_mget in Hin; [|now apply sorted_NoDup]. rewrite mget_mset in Hin. destruct (String.eqb_spec k n); [now left|right; now apply mget_In]. }
  assert (HW : valid D2020 E (JObj (without_additional m1)) (JObj (mset n x o)) = true).
  { rewrite (valid_shape E) by now apply shape_without. unfold additional_ok, without_additional. rewrite mget_mdel. cbn [String.eqb Ascii.eqb Bool.eqb].
    rewrite andb_true_r. unfold props_of, required_of. rewrite !mget_mdel. cbn [String.eqb Ascii.eqb Bool.eqb]. fold (props_of m1) (required_of m1).
    apply andb_true_iff. split.
    - cbn [props_ok] in *. apply forallb_forall. intros [k y] Hin. rewrite forallb_forall in HV1. destruct (HIn _ _ Hin) as [->|Hin'].
      + cbn [fst snd]. unfold mhas in Hn2. destruct (mget n (props_of m1)); [discriminate|reflexivity].
      + exact (HV1 _ Hin').
    - cbn [required_ok] in *. apply forallb_forall. intros r Hr. rewrite forallb_forall in HV2. specialize (HV2 r Hr).
      destruct r; auto. rewrite mhas_mset, HV2. apply orb_true_r. }
  rewrite HW. cbn [andb]. unfold others_held, mhas. destruct HA as [HA|HA]; rewrite HA.
  - cbn [negb]. rewrite !andb_true_r. destruct (valid D2020 E s x); [now rewrite !orb_true_r|]. cbn. reflexivity.
  - cbn [negb]. rewrite andb_false_r. cbn [orb]. destruct (valid D2020 E s x) eqn:EV.
    + cbn [List.length Nat.eqb]. rewrite orb_true_r. cbn [andb]. apply forallb_forall. intros [k y] Hin. cbn [fst snd only].
      destruct (HIn _ _ Hin) as [->|Hin']; [rewrite String.eqb_refl, orb_true_r; reflexivity|].
      unfold additional_ok in HV3. rewrite HA, forallb_forall in HV3. specialize (HV3 _ Hin'). cbn [fst snd] in HV3. unfold mhas in HV3.
      rewrite valid_bool in *. rewrite orb_false_r in HV3. now rewrite HV3.
    + cbn [List.length]. apply andb_false_iff. right. apply not_true_iff_false. intros HF. rewrite forallb_forall in HF.
      assert (Hin : In (n, x) (mset n x o)) by (apply mget_In; now rewrite mget_mset, String.eqb_refl).
      specialize (HF _ Hin). cbn [fst snd only] in HF. fold (mhas n (props_of m1)) in HF. rewrite Hn2, valid_bool in HF. discriminate.
Qed.
End Sem.
