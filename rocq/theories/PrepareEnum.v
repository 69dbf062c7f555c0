(** json_schema_for_flatten on the schema of an enum: which variants' schemas are left. *)
From Coq Require Import String Ascii List ZArith NArith Bool Lia.
From Verif Require Import Json JsonFacts Utf8 SchemaApi Validate ValidateFacts ValidateKw Transform Private PrivateProps
  PrivateFlatten PrivateForFlatten.
Import ListNotations.
Open Scope string_scope.
Open Scope list_scope.

(** ** Opening a schema *)
Definition drop_false (k : string) (m : map_t) : map_t :=
  match mget k m with Some (JBool false) => mdel k m | _ => m end.
Definition open_map (m : map_t) : map_t := drop_false "unevaluatedProperties" (drop_false "additionalProperties" m).
Definition opened_schema (s : json) : json := match s with JObj m => JObj (open_map m) | _ => s end.
(** A schema without immediate subschemas *)
Definition leaf (s : json) : Prop := exists m, s = JObj m /\ forall k, In k immediate_sub_keys -> mget k m = None.

Lemma drop_get k m c : mget c (drop_false k m)
  = if String.eqb c k && match mget c m with Some (JBool false) => true | _ => false end then None else mget c m.
Proof.
  unfold drop_false. destruct (String.eqb_spec c k) as [->|N]; cbn [andb].
  - destruct (mget k m) as [[|[]| | | |]|] eqn:EK; rewrite ?mget_mdel, ?String.eqb_refl, ?EK; reflexivity.
  - destruct (mget k m) as [[|[]| | | |]|]; auto. rewrite mget_mdel. now destruct (String.eqb_spec c k).
Qed.
Lemma open_get m c : mget c (open_map m)
  = if mem c ["additionalProperties"; "unevaluatedProperties"] && match mget c m with Some (JBool false) => true | _ => false end then None else mget c m.
Proof.
  unfold open_map. rewrite !drop_get. cbn [mem existsb]. destruct (String.eqb_spec c "additionalProperties") as [->|]; [reflexivity|].
  cbn [andb orb]. now rewrite orb_false_r.
Qed.
Lemma sorted_drop k m : sorted_keys (map fst m) = true -> sorted_keys (map fst (drop_false k m)) = true.
Proof. intros H. unfold drop_false. destruct (mget k m) as [[|[]| | | |]|]; auto. now apply sorted_mdel. Qed.
Lemma sorted_open m : sorted_keys (map fst m) = true -> sorted_keys (map fst (open_map m)) = true.
Proof. intros H. unfold open_map. now apply sorted_drop, sorted_drop. Qed.

Lemma allow_step n m d : exists d', allow_unknown_n (S n) (JObj m) d = transform_immediate_subschemas_st (allow_unknown_n n) (JObj (open_map m)) d'.
Proof.
  cbn [allow_unknown_n].
  assert (H : forall k m d, (if get_is_false k (JObj m) then (fst (s_remove k (JObj m)), true) else (JObj m, d))
     = (JObj (drop_false k m), if get_is_false k (JObj m) then true else d)).
  { clear. intros k m d. unfold get_is_false, drop_false. cbn [s_get s_remove fst]. destruct (mget k m) as [[|[]| | | |]|]; reflexivity. }
  rewrite H, H. eauto.
Qed.
Lemma allow_leaf n m d : (forall k, In k immediate_sub_keys -> mget k m = None) -> exists d', allow_unknown_n (S n) (JObj m) d = (JObj (open_map m), d').
Proof.
  intros HI. destruct (allow_step n m d) as [d' ->]. rewrite immediate_none; [eauto|].
  intros k Hk. rewrite open_get, (HI k Hk), andb_false_r. reflexivity.
Qed.
Lemma arr_leaves n l : forall d, Forall leaf l -> exists d', map_st (try_sub (allow_unknown_n (S n))) l d = (map opened_schema l, d').
Proof.
  induction l as [|s l IH]; intros d H; [cbn; eauto|]. inversion H as [|? ? (m & -> & HM) HL]; subst. cbn [map_st map opened_schema].
  unfold try_sub at 1. cbn [is_schema]. destruct (allow_leaf n m d HM) as [d1 ->]. destruct (IH d1 HL) as [d2 ->]. eauto.
Qed.

(** The subschemas under the only such keyword *)
Lemma immediate_at {St} (t : tr St) key l l' st st' : In key ["oneOf"; "anyOf"] -> map_st (try_sub t) l st = (l', st') -> forall m,
  NoDup (map fst m) -> mget key m = Some (JArr l) -> (forall k, In k immediate_sub_keys -> k <> key -> mget k m = None) ->
  transform_immediate_subschemas_st t (JObj m) st = (JObj (mupd key (fun _ => JArr l') m), st').
Proof.
  intros HK HL m ND HG HO. unfold transform_immediate_subschemas_st.
  assert (HN : forall m st, (forall k x, In (k, x) m -> ~ In k immediate_sub_keys) ->
    map_st (fun kv st => let '(x, st1) := sub_value t (immediate_shape (fst kv)) (snd kv) st in ((fst kv, x), st1)) m st = (m, st)).
  { clear. intros m st. induction m as [|[k x] m IH]; intros H; [reflexivity|]. cbn [map_st fst snd].
    rewrite immediate_other by (eapply H; now left). cbn [sub_value]. rewrite IH; [reflexivity|]. intros k' x' Hin. apply (H k' x'). now right. }
  assert (HM : map_st (fun kv st => let '(x, st1) := sub_value t (immediate_shape (fst kv)) (snd kv) st in ((fst kv, x), st1)) m st
    = (mupd key (fun _ => JArr l') m, st')); [|now rewrite HM].
  induction m as [|[k x] m IH]; [discriminate|]. cbn [map fst] in ND. inversion ND as [|? ? N1 N2]; subst. cbn [mget] in HG. cbn [mupd map_st fst snd].
  assert (HS : forall k' x', In (k', x') m -> k' <> k) by (intros k' x' Hin E; apply N1; rewrite <- E; now apply (in_map fst) in Hin).
  destruct (String.eqb_spec key k) as [<-|N].
  - injection HG as ->. assert (HSh : immediate_shape key = Many) by (destruct HK as [<-|[<-|[]]]; reflexivity).
    rewrite HSh. cbn [sub_value try_arr]. rewrite HL. rewrite HN; [reflexivity|].
    intros k' x' Hin HI. specialize (HO k' HI (HS k' x' Hin)). cbn [mget] in HO. destruct (String.eqb_spec k' key) as [E|_]; [exact (HS k' x' Hin E)|].
    rewrite (NoDup_mget _ _ _ N2 Hin) in HO. discriminate.
  - rewrite immediate_other.
    + cbn [sub_value]. rewrite IH; [reflexivity|exact N2|exact HG|]. intros k' HI HKK. specialize (HO k' HI HKK). cbn [mget] in HO.
      destruct (String.eqb k' k); [discriminate|exact HO].
    + intros HI. specialize (HO k HI (not_eq_sym N)). cbn [mget] in HO. rewrite String.eqb_refl in HO. discriminate.
Qed.

(** ** The schema of an enum *)
(** Its unit variants [us] and the schemas [ss] of the others; the rest are annotations. *)
Record enum_doc (us : list string) (ss : list json) (m : map_t) : Prop := {
  ed_sorted : sorted_keys (map fst m) = true;
  ed_rest : forall k, In k kws \/ In k ctx -> mget k m <> None -> In k ["type"; "enum"; "oneOf"];
  ed_leaves : Forall leaf ss;
  ed_kind : (ss = [] /\ mget "type" m = Some (JStr "string") /\ mget "enum" m = Some (JArr (map JStr us)) /\ mget "oneOf" m = None)
    \/ (mget "type" m = None /\ mget "enum" m = None
        /\ ((us = [] /\ mget "oneOf" m = Some (JArr ss) /\ match ss with s :: _ => get_is_str "type" "string" s = false | [] => True end)
            \/ (exists u, mget "oneOf" m = Some (JArr (JObj u :: ss)) /\ mget "type" u = Some (JStr "string")
                 /\ mget "enum" u = Some (JArr (map JStr us))))) }.

Definition all_variants (us : list string) (ss : list json) : list json := map opened_schema ss ++ map flattened_unit_variant us.

Lemma opened_unit u : opened_schema (flattened_unit_variant u) = flattened_unit_variant u.
Proof. reflexivity. Qed.
Lemma leaf_unit u : leaf (flattened_unit_variant u).
Proof. eexists. split; [reflexivity|]. intros k Hk. cbn in Hk. repeat (destruct Hk as [<-|Hk]; [reflexivity|]). destruct Hk. Qed.

Lemma immediate_used k : In k immediate_sub_keys -> (In k kws \/ In k ctx) /\ k <> "type" /\ k <> "enum".
Proof.
  intros H. cbn in H. repeat (destruct H as [<-|H]; [split; [first [left; solve [cbn; auto 60]|right; solve [cbn; auto 60]]|split; discriminate]|]). destruct H.
Qed.

Lemma units_map us : flat_map (fun v => match v with JStr x => [flattened_unit_variant x] | _ => [] end) (map JStr us) = map flattened_unit_variant us.
Proof. induction us as [|v us IH]; [reflexivity|]. cbn. now rewrite IH. Qed.

(** After the unit variants have been replaced *)
Definition with_units (s : json) : json :=
  let '(s1, uv) := remove_unit_variants s in
  match uv with
  | Some vs =>
      let m := ensure_obj s1 in
      let m := if mhas "oneOf" m then m else mset "oneOf" (JArr []) m in
      match mget "oneOf" m with
      | Some (JArr l) =>
          JObj (mset "oneOf" (JArr (l ++ flat_map (fun v => match v with JStr x => [flattened_unit_variant x] | _ => [] end) vs)) m)
      | _ => JObj m
      end
  | None => s1
  end.

Lemma with_units_doc us ss m : enum_doc us ss m -> exists m2, with_units (JObj m) = JObj m2
  /\ sorted_keys (map fst m2) = true
  /\ mget "oneOf" m2 = Some (JArr (ss ++ map flattened_unit_variant us))
  /\ mget "type" m2 = None /\ mget "enum" m2 = None
  /\ forall c, c <> "oneOf" -> c <> "type" -> c <> "enum" -> mget c m2 = mget c m.
Proof.
  intros [HS HR HL HK]. unfold with_units, remove_unit_variants, get_is_str. cbn [s_get].
  destruct HK as [(-> & HT & HE & HO)|(HT & HE & [(-> & HO & HF)|(u & HO & HT' & HE')])].
  - rewrite HT. cbn [String.eqb Ascii.eqb Bool.eqb s_remove]. rewrite HE. cbn [fst s_remove ensure_obj ensure_object].
    unfold mhas. repeat rewrite mget_mdel. cbn [String.eqb Ascii.eqb Bool.eqb]. rewrite HO. rewrite mget_mset, String.eqb_refl, units_map.
    eexists. split; [reflexivity|]. split; [now repeat apply sorted_mset; repeat apply sorted_mdel|].
    split; [now rewrite mget_mset, String.eqb_refl|].
    repeat split; [rewrite !mget_mset, !mget_mdel; reflexivity|rewrite !mget_mset, !mget_mdel; reflexivity|].
    intros c C1 C2 C3. rewrite !mget_mset, !mget_mdel. apply String.eqb_neq in C1, C2, C3. now rewrite C1, C2, C3.
  - rewrite HT. cbn [s_get]. rewrite HO. rewrite app_nil_r.
    destruct ss as [|s ss]; [now exists m; rewrite HO|]. unfold get_is_str in HF; rewrite HF, andb_false_r. exists m. now rewrite HO.
  - rewrite HT. cbn [s_get]. rewrite HO. cbn [is_schema s_get andb]. rewrite HT'. cbn [String.eqb Ascii.eqb Bool.eqb s_remove].
    rewrite HE'. cbn [s_get_mut_set].
    assert (M1 : mhas "oneOf" m = true) by (unfold mhas; now rewrite HO). rewrite M1. cbn [fst ensure_obj ensure_object].
    assert (M2 : mget "oneOf" (mupd "oneOf" (fun _ => JArr ss) m) = Some (JArr ss)) by (rewrite mget_mupd, String.eqb_refl, HO; reflexivity).
    assert (M3 : mhas "oneOf" (mupd "oneOf" (fun _ => JArr ss) m) = true) by (unfold mhas; now rewrite M2). rewrite M3, M2, units_map.
    eexists. split; [reflexivity|].
    assert (HM : forall k (f : json -> json) (q : map_t), map fst (mupd k f q) = map fst q).
    { clear. intros k f q. induction q as [|[k' x] q IH]; [reflexivity|]. cbn. destruct (String.eqb k k'); cbn; [reflexivity|now rewrite IH]. }
    split; [apply sorted_mset; now rewrite HM|]. split; [now rewrite mget_mset, String.eqb_refl|].
    repeat split; [rewrite mget_mset, mget_mupd; exact HT|rewrite mget_mset, mget_mupd; exact HE|].
    intros c C1 C2 C3. rewrite mget_mset, mget_mupd. apply String.eqb_neq in C1. now rewrite C1.
Qed.

(** What is left for the struct: alternatives that allow further properties; if the field is optional,
    nothing is asked. *)
Record prepared_doc (opt : bool) (us : list string) (ss : list json) (m d : map_t) : Prop := {
  pd_sorted : sorted_keys (map fst d) = true;
  pd_rest : forall k, In k kws \/ In k ctx -> mget k d <> None -> k = if opt then "anyOf" else "oneOf";
  pd_same : forall k, ~ In k kws -> ~ In k ctx -> mget k d = mget k m;
  pd_alts : if opt then exists x, mget "anyOf" d = Some (JArr [x; JObj []]) else mget "oneOf" d = Some (JArr (all_variants us ss)) }.

Theorem for_flatten_doc us ss m opt : enum_doc us ss m -> exists d, for_flatten (JObj m) opt = JObj d /\ prepared_doc opt us ss m d.
Proof.
  intros H. destruct (with_units_doc us ss m H) as (m2 & HW & W1 & W2 & W3 & W4 & W5). pose proof H as [HS HR HL _].
  assert (R2 : forall k, In k kws \/ In k ctx -> mget k m2 <> None -> k = "oneOf").
  { intros k Hk HN. destruct (String.eqb_spec k "oneOf") as [|N1]; [assumption|]. destruct (String.eqb_spec k "type") as [->|N2]; [congruence|].
    destruct (String.eqb_spec k "enum") as [->|N3]; [congruence|]. rewrite W5 in HN by assumption. exfalso.
    destruct (HR k Hk HN) as [<-|[<-|[<-|[]]]]; congruence. }
  assert (A2 : forall k, (In k kws \/ In k ctx) -> k <> "oneOf" -> mget k m2 = None).
  { intros k Hk N. destruct (mget k m2) eqn:EK; [|reflexivity]. exfalso. apply N, R2; [exact Hk|congruence]. }
  assert (LV : Forall leaf (ss ++ map flattened_unit_variant us)).
  { apply Forall_app. split; [exact HL|]. apply Forall_forall. intros s Hs. apply in_map_iff in Hs as (u & <- & _). apply leaf_unit. }
  assert (MO : map opened_schema (ss ++ map flattened_unit_variant us) = all_variants us ss).
  { unfold all_variants. rewrite map_app. f_equal. rewrite map_map. apply map_ext. intros u. apply opened_unit. }
  assert (SAME : forall k, ~ In k kws -> ~ In k ctx -> mget k m2 = mget k m).
  { intros k K1 K2. apply W5; intros ->; apply K1; in_names. }
  assert (OM : forall m', (forall k, In k kws \/ In k ctx -> mget k m' <> None -> In k ["oneOf"; "anyOf"]) -> open_map m' = m').
  { intros m' HM. unfold open_map, drop_false at 2. destruct (mget "additionalProperties" m') eqn:EA.
    - exfalso. destruct (HM "additionalProperties") as [HH|[HH|[]]]; try discriminate; [left; in_names|congruence].
    - unfold drop_false. destruct (mget "unevaluatedProperties" m') eqn:EB; [|reflexivity].
      exfalso. destruct (HM "unevaluatedProperties") as [HH|[HH|[]]]; try discriminate; [left; in_names|congruence]. }
  unfold for_flatten. fold (with_units (JObj m)) in *.
  replace (let '(s1, uv) := remove_unit_variants (JObj m) in _) with
    (fst (allow_unknown (if opt then
      let s := fst (s_remove "required" (with_units (JObj m))) in
      let '(s, one) := s_remove "oneOf" s in
      let s := match one with
               | Some o => flatten s (JObj [("anyOf", JArr [JObj [("oneOf", o)]; JObj []])])
               | None => s
               end in
      match s_get "anyOf" s with
      | Some (JArr l) =>
          if existsb (json_eqb (JObj [])) l then s
          else fst (s_get_mut_set "anyOf" (JArr (l ++ [JObj []])) s)
      | _ => s
      end
    else with_units (JObj m)))) by (unfold with_units; destruct (remove_unit_variants (JObj m)) as [s1 uv]; reflexivity).
  rewrite HW. destruct opt.
  - cbn [s_remove fst]. rewrite mget_mdel. cbn [String.eqb Ascii.eqb Bool.eqb]. rewrite W2.
    set (m3 := mdel "oneOf" (mdel "required" m2)).
    assert (G3 : forall k, In k kws \/ In k ctx -> mget k m3 = None).
    { intros k Hk. unfold m3. rewrite !mget_mdel. destruct (String.eqb_spec k "oneOf") as [->|]; [reflexivity|].
      destruct (String.eqb k "required"); auto. }
    assert (F3 : forall x, flatten (JObj m3) (JObj [("anyOf", x)]) = JObj (mset "anyOf" x m3)).
    { intros x. unfold flatten. cbn [ensure_obj ensure_object]. unfold normalise. rewrite !G3 by (left; in_names).
      cbn [mget String.eqb Ascii.eqb Bool.eqb fold_left fst snd]. unfold flatten_property. cbn [mem existsb String.eqb Ascii.eqb Bool.eqb orb].
      now rewrite G3 by (left; in_names). }
    rewrite F3. cbn [s_get]. rewrite mget_mset. cbn [String.eqb Ascii.eqb Bool.eqb].
    set (alt := JObj [("oneOf", JArr (ss ++ map flattened_unit_variant us))]).
    assert (HEx : existsb (json_eqb (JObj [])) [alt; JObj []] = true) by (cbn [existsb]; now rewrite orb_true_r).
    rewrite HEx.
    set (m4 := mset "anyOf" (JArr [alt; JObj []]) m3).
    assert (S4 : sorted_keys (map fst m4) = true) by (apply sorted_mset; now repeat apply sorted_mdel).
    assert (R4 : forall k, In k kws \/ In k ctx -> mget k m4 <> None -> k = "anyOf").
    { intros k Hk HN. unfold m4 in HN. rewrite mget_mset in HN. destruct (String.eqb_spec k "anyOf") as [|]; [assumption|].
      rewrite G3 in HN by exact Hk. congruence. }
    assert (HD : exists n, depth (JObj m4) = S (S n)).
    { pose proof (depth_pos (JArr [alt; JObj []])) as HP. assert (HI : mget "anyOf" m4 = Some (JArr [alt; JObj []])) by (unfold m4; now rewrite mget_mset, String.eqb_refl).
      apply mget_In in HI. clear -HI HP. cbn [depth]. assert (HH : 0 < fold_right (fun kv n => Nat.max (depth (snd kv)) n) 0 m4).
      { induction m4 as [|[k x] q IH]; [destruct HI|]. cbn [fold_right snd]. destruct HI as [[= -> ->]|HI]; [lia|specialize (IH HI); lia]. }
      destruct (fold_right (fun kv n => Nat.max (depth (snd kv)) n) 0 m4) as [|n]; [lia|]. now exists n. }
    destruct HD as [n HD]. unfold allow_unknown. rewrite HD. destruct (allow_step (S n) m4 false) as [d' ->].
    rewrite OM by (intros k Hk HN; rewrite (R4 k Hk HN); right; now left).
    destruct (map_st (try_sub (allow_unknown_n (S n))) [alt; JObj []] d') as [l' d2] eqn:EL.
    assert (HL' : exists x, l' = [x; JObj []]).
    { cbn [map_st] in EL. unfold try_sub in EL. cbn [is_schema alt] in EL. destruct (allow_unknown_n (S n) alt d') as [x dx].
      destruct (allow_leaf n [] dx) as [dy HY]; [reflexivity|]. rewrite HY in EL. injection EL as <- _. now exists x. }
    rewrite (immediate_at _ "anyOf" [alt; JObj []] l' d' d2); auto.
    + cbn [fst]. eexists. split; [reflexivity|].
      assert (HM : forall k (f : json -> json) (q : map_t), map fst (mupd k f q) = map fst q).
      { clear. intros k f q. induction q as [|[k' x] q IH]; [reflexivity|]. cbn. destruct (String.eqb k k'); cbn; [reflexivity|now rewrite IH]. }
      split.
      * now rewrite HM.
      * intros k Hk. rewrite mget_mupd. destruct (String.eqb_spec k "anyOf"); [auto|]. now apply R4.
      * intros k K1 K2. rewrite mget_mupd. unfold m4, m3. rewrite mget_mset, !mget_mdel.
        destruct (String.eqb_spec k "anyOf") as [->|]; [exfalso; apply K1; in_names|].
        destruct (String.eqb_spec k "oneOf") as [->|]; [exfalso; apply K1; in_names|].
        destruct (String.eqb_spec k "required") as [->|]; [exfalso; apply K1; in_names|]. now apply SAME.
      * destruct HL' as [x ->]. exists x. rewrite mget_mupd, String.eqb_refl. unfold m4. now rewrite mget_mset, String.eqb_refl.
    + cbn. tauto.
    + now apply sorted_NoDup.
    + unfold m4. now rewrite mget_mset, String.eqb_refl.
    + intros k Hk N. destruct (immediate_used k Hk) as (HU & _). destruct (mget k m4) eqn:EK; [|reflexivity]. exfalso. apply N, R4; [exact HU|congruence].
  - assert (HD : exists n, depth (JObj m2) = S (S n)).
    { pose proof (depth_pos (JArr (ss ++ map flattened_unit_variant us))) as HP. pose proof W2 as HI.
      apply mget_In in HI. clear -HI HP. cbn [depth]. assert (HH : 0 < fold_right (fun kv n => Nat.max (depth (snd kv)) n) 0 m2).
      { induction m2 as [|[k x] q IH]; [destruct HI|]. cbn [fold_right snd]. destruct HI as [[= -> ->]|HI]; [lia|specialize (IH HI); lia]. }
      destruct (fold_right (fun kv n => Nat.max (depth (snd kv)) n) 0 m2) as [|n]; [lia|]. now exists n. }
    destruct HD as [n HD]. unfold allow_unknown. rewrite HD. destruct (allow_step (S n) m2 false) as [d' ->].
    rewrite OM by (intros k Hk HN; rewrite (R2 k Hk HN); now left).
    destruct (arr_leaves n (ss ++ map flattened_unit_variant us) d' LV) as [d2 EL]. rewrite MO in EL.
    rewrite (immediate_at _ "oneOf" _ _ d' d2 ltac:(cbn; tauto) EL); auto.
    + cbn [fst]. eexists. split; [reflexivity|].
      assert (HM : forall k (f : json -> json) (q : map_t), map fst (mupd k f q) = map fst q).
      { clear. intros k f q. induction q as [|[k' x] q IH]; [reflexivity|]. cbn. destruct (String.eqb k k'); cbn; [reflexivity|now rewrite IH]. }
      split.
      * now rewrite HM.
      * intros k Hk. rewrite mget_mupd. destruct (String.eqb_spec k "oneOf"); [auto|]. now apply R2.
      * intros k K1 K2. rewrite mget_mupd. destruct (String.eqb_spec k "oneOf") as [->|]; [exfalso; apply K1; in_names|]. now apply SAME.
      * rewrite mget_mupd, String.eqb_refl, W2. reflexivity.
    + now apply sorted_NoDup.
    + intros k Hk N. destruct (immediate_used k Hk) as (HU & _). auto.
Qed.
