(** json_schema_for_flatten: what happens to the meaning of a struct's and of a unit enum's schema. *)
From Coq Require Import String Ascii List ZArith NArith Bool Lia.
From Verif Require Import Json JsonFacts Utf8 SchemaApi Validate ValidateFacts ValidateKw Transform Private PrivateProps
  PrivateFlatten.
Import ListNotations.
Open Scope string_scope.

Definition immediate_sub_keys : list string := ["if"; "then"; "else"; "not"; "allOf"; "anyOf"; "oneOf"].

Lemma immediate_other k : ~ In k immediate_sub_keys -> immediate_shape k = Other.
Proof.
  intros H. unfold immediate_shape.
  destruct (mem k _) eqn:M1; [apply mem_In in M1; exfalso; apply H; cbn in *; tauto|].
  destruct (mem k ["allOf"; "anyOf"; "oneOf"]) eqn:M2; [apply mem_In in M2; exfalso; apply H; cbn in *; tauto|].
  reflexivity.
Qed.

Lemma immediate_none {St} (t : tr St) m st : (forall k, In k immediate_sub_keys -> mget k m = None) ->
  transform_immediate_subschemas_st t (JObj m) st = (JObj m, st).
Proof.
  intros H. unfold transform_immediate_subschemas_st.
  assert (HK : forall kv, In kv m -> ~ In (fst kv) immediate_sub_keys).
  { intros [k x] Hin HI. specialize (H k HI). apply (in_map fst) in Hin. apply mhas_In in Hin. auto. }
  assert (HM : forall st, map_st (fun kv st => let '(x, st1) := sub_value t (immediate_shape (fst kv)) (snd kv) st in
                  ((fst kv, x), st1)) m st = (m, st)).
  { clear H st. induction m as [|[k x] m IH]; intros st; [reflexivity|]. cbn [map_st fst snd].
    rewrite immediate_other by (apply (HK (k, x)); now left). cbn [sub_value].
    rewrite IH by (intros; apply HK; now right). reflexivity. }
  now rewrite HM.
Qed.

(** ** Structs *)
Section Sem.
Variable E : env.

Lemma allow_unknown_flat m : (forall k, In k immediate_sub_keys -> mget k m = None) ->
  exists m', fst (allow_unknown (JObj m)) = JObj m' /\ (forall k, mget k m' =
    if mem k ["additionalProperties"; "unevaluatedProperties"] && match mget k m with Some (JBool false) => true | _ => false end
    then None else mget k m) /\ (sorted_keys (map fst m) = true -> sorted_keys (map fst m') = true).
Proof.
  intros HI. unfold allow_unknown. pose proof (depth_pos (JObj m)) as HD.
  destruct (depth (JObj m)) as [|n]; [lia|]. cbn [allow_unknown_n].
  assert (HS : forall k m, (if get_is_false k (JObj m) then mdel k m else m)
     = match mget k m with Some (JBool false) => mdel k m | _ => m end).
  { clear. intros k m. unfold get_is_false. cbn [s_get]. destruct (mget k m) as [[|[]| | | |]|]; reflexivity. }
  set (m1 := match mget "additionalProperties" m with Some (JBool false) => mdel "additionalProperties" m | _ => m end).
  set (m2 := match mget "unevaluatedProperties" m1 with Some (JBool false) => mdel "unevaluatedProperties" m1 | _ => m1 end).
  assert (G1 : forall k, mget k m1 = if String.eqb k "additionalProperties" && match mget k m with Some (JBool false) => true | _ => false end
                                     then None else mget k m).
  { intros k. unfold m1. destruct (String.eqb_spec k "additionalProperties") as [->|N].
    - destruct (mget "additionalProperties" m) as [[|[]| | | |]|] eqn:EA; cbn; rewrite ?mget_mdel; auto.
    - cbn [andb]. destruct (mget "additionalProperties" m) as [[|[]| | | |]|]; rewrite ?mget_mdel; auto.
      destruct (String.eqb_spec k "additionalProperties"); congruence. }
  assert (G2 : forall k, mget k m2 = if String.eqb k "unevaluatedProperties" && match mget k m1 with Some (JBool false) => true | _ => false end
                                     then None else mget k m1).
  { intros k. unfold m2. destruct (String.eqb_spec k "unevaluatedProperties") as [->|N].
    - destruct (mget "unevaluatedProperties" m1) as [[|[]| | | |]|] eqn:EA; cbn; rewrite ?mget_mdel; auto.
    - cbn [andb]. destruct (mget "unevaluatedProperties" m1) as [[|[]| | | |]|]; rewrite ?mget_mdel; auto.
      destruct (String.eqb_spec k "unevaluatedProperties"); congruence. }
  assert (H1 : exists d, (if get_is_false "additionalProperties" (JObj m)
                  then (fst (s_remove "additionalProperties" (JObj m)), true) else (JObj m, false)) = (JObj m1, d)).
  { unfold m1, get_is_false. cbn [s_get s_remove fst]. destruct (mget "additionalProperties" m) as [[|[]| | | |]|]; eauto. }
  destruct H1 as [d1 ->].
  assert (H2 : exists d, (if get_is_false "unevaluatedProperties" (JObj m1)
                  then (fst (s_remove "unevaluatedProperties" (JObj m1)), true) else (JObj m1, d1)) = (JObj m2, d)).
  { unfold m2, get_is_false. cbn [s_get s_remove fst]. destruct (mget "unevaluatedProperties" m1) as [[|[]| | | |]|]; eauto. }
  destruct H2 as [d2 ->]. rewrite immediate_none.
  - exists m2. split; [reflexivity|]. split.
    + intros k. rewrite G2, G1. cbn [mem existsb].
      destruct (String.eqb_spec k "additionalProperties") as [->|N1]; [reflexivity|].
      cbn [orb andb]. now rewrite orb_false_r.
    + intros HSo. assert (S1 : sorted_keys (map fst m1) = true).
      { unfold m1. destruct (mget "additionalProperties" m) as [[|[]| | | |]|]; auto. now apply sorted_mdel. }
      unfold m2. destruct (mget "unevaluatedProperties" m1) as [[|[]| | | |]|]; auto. now apply sorted_mdel.
  - intros k Hk. rewrite G2, G1, (HI k Hk). now rewrite !andb_false_r.
Qed.

Definition open_additional (m o : map_t) : bool :=
  match mget "additionalProperties" m with Some (JBool false) => true | _ => additional_ok E m o end.

Lemma for_flatten_get m opt :
  object_shape m -> mget "then" m = None -> mget "else" m = None ->
  exists m', for_flatten (JObj m) opt = JObj m'
    /\ (forall k, mget k m' =
          if mem k ["additionalProperties"; "unevaluatedProperties"]
             && match (if opt && String.eqb k "required" then None else mget k m) with Some (JBool false) => true | _ => false end
          then None else if opt && String.eqb k "required" then None else mget k m)
    /\ (sorted_keys (map fst m) = true -> sorted_keys (map fst m') = true).
Proof.
  intros HS HT HE. pose proof HS as (_ & HTy & _).
  assert (HA : forall k, In k ["if"; "not"; "allOf"; "anyOf"; "oneOf"; "unevaluatedProperties"] -> mget k m = None).
  { intros k Hk. apply shape_absent; [exact HS| |].
    - cbn in Hk. repeat (destruct Hk as [<-|Hk]; [in_names|]). destruct Hk.
    - cbn in Hk. intros HO. cbn in HO.
      repeat (destruct Hk as [<-|Hk]; [repeat (destruct HO as [HO|HO]; [discriminate|]); exact HO|]). exact Hk. }
  assert (HU : remove_unit_variants (JObj m) = (JObj m, None)).
  { unfold remove_unit_variants, get_is_str. cbn [s_get].
    destruct HTy as [->| ->]; cbn [String.eqb Ascii.eqb Bool.eqb s_get]; now rewrite (HA "oneOf") by in_names. }
  unfold for_flatten. rewrite HU. cbv zeta.
  set (m0 := if opt then mdel "oneOf" (mdel "required" m) else m).
  assert (HM : (if opt then
      let s := fst (s_remove "required" (JObj m)) in
      let '(s, one) := s_remove "oneOf" s in
      let s := match one with
               | Some o => flatten s (JObj [("anyOf", JArr [JObj [("oneOf", o)]; JObj []])])
               | None => s
               end in
      match s_get "anyOf" s with
      | Some (JArr l) =>
          if existsb (json_eqb (JObj [])) l then s
          else fst (s_get_mut_set "anyOf" (JArr (l ++ [JObj []])) s)
      | _ => s
      end
    else JObj m) = JObj m0).
  { unfold m0. destruct opt; [|reflexivity]. cbn [s_remove fst]. rewrite mget_mdel. cbn [String.eqb Ascii.eqb Bool.eqb].
    rewrite (HA "oneOf") by in_names. cbn [s_get]. rewrite !mget_mdel. cbn [String.eqb Ascii.eqb Bool.eqb].
    rewrite (HA "anyOf") by in_names. reflexivity. }
  cbv zeta in HM. rewrite HM.
  assert (G0 : forall k, mget k m0 = if opt && String.eqb k "required" then None else mget k m).
  { intros k. unfold m0. destruct opt; [|reflexivity]. rewrite !mget_mdel. cbn [andb].
    destruct (String.eqb_spec k "oneOf") as [->|]; [|reflexivity]. now rewrite HA by in_names. }
  destruct (allow_unknown_flat m0) as (m' & -> & G & SO).
  { intros k Hk. rewrite G0. destruct (opt && String.eqb k "required"); [reflexivity|].
    cbn in Hk. repeat (destruct Hk as [<-|Hk]; [first [assumption|apply HA; in_names]|]). destruct Hk. }
  exists m'. split; [reflexivity|]. split.
  - intros k. rewrite G, G0. reflexivity.
  - intros HSo. apply SO. unfold m0. destruct opt; [|exact HSo]. now apply sorted_mdel, sorted_mdel.
Qed.

Theorem for_flatten_struct m opt o :
  object_shape m -> mget "then" m = None -> mget "else" m = None ->
  valid D2020 E (for_flatten (JObj m) opt) (JObj o)
  = props_ok E (props_of m) (JObj o) && (opt || required_ok (required_of m) (JObj o)) && open_additional m o.
Proof.
  intros HS HT HE. destruct (for_flatten_get m opt HS HT HE) as (m' & -> & G & _).
  assert (HS' : object_shape m').
  { destruct HS as (K1 & K2 & K3 & K4). split; [|split; [|split]].
    - intros k Hk HN. apply K1; [exact Hk|]. rewrite G in HN.
      destruct (opt && String.eqb k "required"); [|destruct (mget k m); [discriminate|]];
        destruct (mem k ["additionalProperties"; "unevaluatedProperties"]); cbn in HN; congruence.
    - rewrite G. cbn [mem existsb String.eqb Ascii.eqb Bool.eqb orb andb].
      rewrite andb_false_r. exact K2.
    - rewrite G. cbn [mem existsb String.eqb Ascii.eqb Bool.eqb orb andb]. rewrite andb_false_r. exact K3.
    - rewrite G. cbn [mem existsb String.eqb Ascii.eqb Bool.eqb orb andb]. rewrite andb_true_r.
      destruct opt; auto. }
  rewrite (valid_shape E m' o HS').
  assert (P1 : props_of m' = props_of m).
  { unfold props_of. rewrite G. cbn [mem existsb String.eqb Ascii.eqb Bool.eqb orb andb]. now rewrite andb_false_r. }
  assert (P2 : required_of m' = if opt then [] else required_of m).
  { unfold required_of. rewrite G. cbn [mem existsb String.eqb Ascii.eqb Bool.eqb orb andb]. rewrite andb_true_r.
    now destruct opt. }
  assert (P3 : additional_ok E m' o = open_additional m o).
  { unfold open_additional, additional_ok. rewrite P1, G.
    cbn [mem existsb String.eqb Ascii.eqb Bool.eqb orb andb]. rewrite andb_false_r.
    destruct (mget "additionalProperties" m) as [[|[]| | | |]|]; reflexivity. }
  rewrite P1, P2, P3. now destruct opt.
Qed.

(** ** Enums of unit variants: the variants are written {"Name": null} *)
Definition unit_enum (vs : list string) : json :=
  JObj [("enum", JArr (map JStr vs)); ("type", JStr "string")].

Lemma flattened_unit_sem variant x :
  valid D2020 E (flattened_unit_variant variant) (JObj [(x, JNull)]) = String.eqb variant x.
Proof.
  change (flattened_unit_variant variant)
    with (JObj [("properties", JObj [(variant, JObj [("type", JStr "null")])]);
                ("required", JArr [JStr variant]); ("type", JStr "object")]).
  rewrite (valid_shape E).
  - unfold props_of, required_of, additional_ok. cbn [mget String.eqb Ascii.eqb Bool.eqb props_ok required_ok forallb fst snd].
    rewrite andb_true_r, andb_true_r.
    unfold mhas. cbn [mget]. destruct (String.eqb_spec x variant) as [->|N].
    + rewrite String.eqb_refl. reflexivity.
    + destruct (String.eqb_spec variant x); [congruence|]. reflexivity.
  - split; [|repeat split; right; try eexists; reflexivity]. intros k Hk HN. cbn [mget] in HN.
    destruct (String.eqb_spec k "properties") as [->|]; [in_names|].
    destruct (String.eqb_spec k "required") as [->|]; [in_names|].
    destruct (String.eqb_spec k "type") as [->|]; [in_names|now elim HN].
Qed.

Lemma allow_unknown_unit n v d : allow_unknown_n n (flattened_unit_variant v) d = (flattened_unit_variant v, d).
Proof.
  destruct n as [|n]; [reflexivity|].
  change (flattened_unit_variant v)
    with (JObj [("properties", JObj [(v, JObj [("type", JStr "null")])]);
                ("required", JArr [JStr v]); ("type", JStr "object")]).
  cbn [allow_unknown_n]. unfold get_is_false. cbn [s_get mget String.eqb Ascii.eqb Bool.eqb].
  apply immediate_none. intros k Hk. cbn in Hk. repeat (destruct Hk as [<-|Hk]; [reflexivity|]). destruct Hk.
Qed.

Lemma for_flatten_unit_enum vs :
  for_flatten (unit_enum vs) false = JObj [("oneOf", JArr (map flattened_unit_variant vs))].
Proof.
  unfold for_flatten, unit_enum, remove_unit_variants, get_is_str.
  cbn [s_get mget s_remove mdel fst String.eqb Ascii.eqb Bool.eqb].
  cbv zeta. cbn [ensure_obj ensure_object mhas mget mset String.eqb Ascii.eqb Bool.eqb app].
  assert (HF : flat_map (fun v => match v with JStr x => [flattened_unit_variant x] | _ => [] end) (map JStr vs)
               = map flattened_unit_variant vs).
  { induction vs as [|v vs IH]; [reflexivity|]. cbn. now rewrite IH. }
  rewrite HF. cbn [mset String.compare Ascii.compare].
  match goal with |- fst (allow_unknown ?s) = _ => change s with (JObj [("oneOf", JArr (map flattened_unit_variant vs))]) end.
  unfold allow_unknown. set (D := depth _). destruct D as [|n]; [reflexivity|]. cbn [allow_unknown_n].
  unfold get_is_false. cbn [s_get mget String.eqb Ascii.eqb Bool.eqb].
  unfold transform_immediate_subschemas_st. cbn [map_st fst snd].
  change (immediate_shape "oneOf") with Many. cbn [sub_value].
  assert (HT : forall d, try_arr (allow_unknown_n n) (JArr (map flattened_unit_variant vs)) d
               = (JArr (map flattened_unit_variant vs), d)).
  { intros d. unfold try_arr.
    assert (HM : map_st (try_sub (allow_unknown_n n)) (map flattened_unit_variant vs) d = (map flattened_unit_variant vs, d)).
    { clear HF. induction vs as [|v vs IH]; [reflexivity|]. cbn [map map_st]. unfold try_sub at 1.
      change (is_schema (flattened_unit_variant v)) with true. cbv iota.
      rewrite allow_unknown_unit, IH. reflexivity. }
    now rewrite HM. }
  now rewrite HT.
Qed.

Theorem for_flatten_units vs x : NoDup vs ->
  valid D2020 E (for_flatten (unit_enum vs) false) (JObj [(x, JNull)]) = true <-> In x vs.
Proof.
  intros ND. rewrite for_flatten_unit_enum. rewrite single_sem by in_names.
  unfold kw1, kw. cbn [String.eqb Ascii.eqb Bool.eqb existsb assertion_names orb].
  unfold chk_one, count_ok. cbn [sub_of s_arr arr_of].
  assert (HC : List.length (filter (fun f => ok (f (JObj [(x, JNull)]))) (map (eval D2020 E) (map flattened_unit_variant vs)))
               = count_occ string_dec vs x).
  { clear ND. induction vs as [|v vs IH]; [reflexivity|]. cbn [map filter count_occ].
    change (ok (eval D2020 E (flattened_unit_variant v) (JObj [(x, JNull)])))
      with (valid D2020 E (flattened_unit_variant v) (JObj [(x, JNull)])).
    rewrite flattened_unit_sem. destruct (string_dec v x) as [->|N].
    - rewrite String.eqb_refl. cbn [List.length]. now rewrite IH.
    - destruct (String.eqb_spec v x); [congruence|exact IH]. }
  rewrite HC, Nat.eqb_eq. split.
  - intros H. apply (count_occ_In string_dec). lia.
  - intros H. now apply NoDup_count_occ'.
Qed.
End Sem.
