(** Validators for documents with references, recursive ones included.

    [eval] takes the meaning of references from the environment. Here the environment is built from
    a table of the schemas that can be referred to: if following references without descending into
    the instance always ends, there is a validator under which every reference in the table means the
    schema it refers to ([table_env_spec]). *)
From Coq Require Import String Ascii List ZArith NArith Bool Lia.
From Verif Require Import Json JsonFacts Utf8 Validate ValidateFacts.
Import ListNotations.
Open Scope string_scope.
Open Scope list_scope.

(** ** The size of an instance *)
Fixpoint jdepth (v : json) : nat :=
  match v with
  | JArr l => S (fold_right (fun x n => Nat.max (jdepth x) n) 1 l)
  | JObj m => S (fold_right (fun kx n => Nat.max (match kx with (_, x) => jdepth x end) n) 1 m)
  | _ => 1
  end.

Lemma jdepth_elem l x : In x l -> jdepth x < jdepth (JArr l).
Proof.
  cbn [jdepth]. induction l as [|y l IH]; [intros []|]. cbn [fold_right]. intros [->|H]; [lia|]. specialize (IH H). lia.
Qed.
Lemma jdepth_entry (m : list (string * json)) k x : In (k, x) m -> jdepth x < jdepth (JObj m).
Proof.
  cbn [jdepth]. induction m as [|[k' y] m IH]; [intros []|]. cbn [fold_right]. intros [[= -> ->]|H]; [lia|]. specialize (IH H). lia.
Qed.
Lemma jdepth_name (m : list (string * json)) k : jdepth (JStr k) < jdepth (JObj m).
Proof. cbn [jdepth]. assert (1 <= fold_right (fun kx n => Nat.max (match kx with (_, x) => jdepth x end) n) 1 m); [|lia]. induction m; cbn; lia. Qed.

(** ** Which references matter *)
(** The references a schema follows at the instance itself *)
Definition in_place : list string :=
  ["allOf"; "anyOf"; "oneOf"; "not"; "if"; "then"; "else"; "dependentSchemas"].

Fixpoint refs_here (s : json) : list string :=
  match s with
  | JObj m =>
      flat_map (fun kv => match kv with (k, x) =>
        (if String.eqb k "$ref" then match x with JStr r => [r] | _ => [] end else [])
        ++ (if existsb (String.eqb k) in_place
            then refs_here x
                 ++ match x with
                    | JArr l => flat_map refs_here l
                    | JObj m' => flat_map (fun kv' => match kv' with (_, x') => refs_here x' end) m'
                    | _ => []
                    end
            else []) end) m
  | _ => []
  end.

(** ** Agreement of two environments *)
Section Agree.
Variables (d : dialect) (E E' : env) (v : json).
Hypothesis Hrx : forall p s, e_rx E p s = e_rx E' p s.
Hypothesis Hfmt : forall f w, e_fmt E f w = e_fmt E' f w.

Definition here (f g : json -> result) : Prop := req (f v) (g v).
Definition below (f g : json -> result) : Prop := forall w, jdepth w < jdepth v -> req (f w) (g w).

Definition kv_rel (R : (json -> result) -> (json -> result) -> Prop) (p q : string * (json -> result)) : Prop :=
  fst p = fst q /\ R (snd p) (snd q).
Definition sub_rel (R : (json -> result) -> (json -> result) -> Prop) (a b : sub) : Prop :=
  R (s_den a) (s_den b) /\ orel (Forall2 R) (s_arr a) (s_arr b) /\ orel (Forall2 (kv_rel R)) (s_obj a) (s_obj b).
Definition osub R := orel (sub_rel R).

Lemma osub_arr R o o' : osub R o o' -> orel (Forall2 R) (arr_of o) (arr_of o').
Proof. intros [|a b H]; [constructor|apply H]. Qed.
Lemma osub_obj R o o' : osub R o o' -> orel (Forall2 (kv_rel R)) (obj_of o) (obj_of o').
Proof. intros [|a b H]; [constructor|apply H]. Qed.
Lemma osub_when R b o o' : osub R o o' -> osub R (when b o) (when b o').
Proof. destruct b; auto. constructor. Qed.

Lemma here_ok f g : here f g -> ok (f v) = ok (g v).
Proof. intros H; apply H. Qed.
Lemma here_evs f g k : here f g -> evs (f v) k = evs (g v) k.
Proof. intros [H1 H2]. unfold evs. now rewrite H1, H2. Qed.

Lemma all_agree o o' : osub here o o' -> chk_all o v = chk_all o' v.
Proof. intros H. unfold chk_all. destruct (osub_arr _ _ _ H); [reflexivity|]. eapply forallb_F2; [eassumption|]. intros; now apply here_ok. Qed.
Lemma any_agree o o' : osub here o o' -> chk_any o v = chk_any o' v.
Proof. intros H. unfold chk_any. destruct (osub_arr _ _ _ H); [reflexivity|]. eapply existsb_F2; [eassumption|]. intros; now apply here_ok. Qed.
Lemma one_agree o o' : osub here o o' -> chk_one o v = chk_one o' v.
Proof.
  intros H. unfold chk_one, count_ok. destruct (osub_arr _ _ _ H); [reflexivity|].
  erewrite filter_len_F2; [reflexivity|eassumption|]. intros; now apply here_ok.
Qed.
Lemma not_agree o o' : osub here o o' -> chk_not o v = chk_not o' v.
Proof. intros [|a b H]; [reflexivity|]. cbn. now rewrite (here_ok _ _ (proj1 H)). Qed.
Lemma opt_agree o o' : osub here o o' -> chk_opt o v = chk_opt o' v.
Proof. intros [|a b H]; [reflexivity|]. cbn. now rewrite (here_ok _ _ (proj1 H)). Qed.
Lemma evopt_agree o o' k : osub here o o' -> ev_opt o v k = ev_opt o' v k.
Proof. intros [|a b H]; [reflexivity|]. cbn. now rewrite (here_evs _ _ k (proj1 H)). Qed.
Lemma if_agree i i' t t' e e' : osub here i i' -> osub here t t' -> osub here e e' -> chk_if i t e v = chk_if i' t' e' v.
Proof. intros [|a b H] Ht He; [reflexivity|]. cbn. now rewrite (here_ok _ _ (proj1 H)), (opt_agree _ _ Ht), (opt_agree _ _ He). Qed.
Lemma evif_agree i i' t t' e e' k : osub here i i' -> osub here t t' -> osub here e e' -> ev_if i t e v k = ev_if i' t' e' v k.
Proof.
  intros [|a b H] Ht He; [reflexivity|]. cbn.
  now rewrite (here_ok _ _ (proj1 H)), (here_evs _ _ k (proj1 H)), (evopt_agree _ _ k Ht), (evopt_agree _ _ k He).
Qed.
Lemma evlist_agree o o' k : osub here o o' -> ev_list o v k = ev_list o' v k.
Proof. intros H. unfold ev_list. destruct (osub_arr _ _ _ H); [reflexivity|]. eapply existsb_F2; [eassumption|]. intros; now apply here_evs. Qed.
Lemma dependent_agree o o' : osub here o o' -> chk_dependent o v = chk_dependent o' v.
Proof.
  intros H. unfold chk_dependent. destruct v eqn:EV; try reflexivity. try rewrite <- EV in *. destruct (osub_obj _ _ _ H); [reflexivity|].
  eapply forallb_F2; [eassumption|]. intros f g [-> H2]. now rewrite (here_ok _ _ H2).
Qed.
Lemma evdependent_agree o o' k : osub here o o' -> ev_dependent o v k = ev_dependent o' v k.
Proof.
  intros H. unfold ev_dependent. destruct v eqn:EV; try reflexivity. try rewrite <- EV in *. destruct (osub_obj _ _ _ H); [reflexivity|].
  eapply existsb_F2; [eassumption|]. intros f g [-> H2]. now rewrite (here_evs _ _ k H2).
Qed.

Lemma zip_agree fs fs' l : (forall x, In x l -> jdepth x < jdepth v) -> Forall2 below fs fs' -> zip_ok fs l = zip_ok fs' l.
Proof.
  intros HL HF. revert l HL. induction HF as [|f g fs fs' H _ IH]; intros [|x l] HL; cbn; auto.
  destruct (H x) as [-> _]; [apply HL; now left|]. rewrite IH; auto. intros; apply HL; now right.
Qed.
Lemma elems_agree a b l : (forall x, In x l -> jdepth x < jdepth v) -> sub_rel below a b -> all_ok a l = all_ok b l.
Proof. intros HL [H _]. apply forallb_eq. intros x Hx. apply H. auto. Qed.

Lemma skipn_In {A} n : forall (l : list A) x, In x (skipn n l) -> In x l.
Proof. induction n as [|n IH]; intros [|y l] x; cbn; auto. Qed.

Lemma items_agree p p' i i' a a' : osub below p p' -> osub below i i' -> osub below a a' ->
  chk_items d p i a v = chk_items d p' i' a' v.
Proof.
  intros Hp Hi Ha. unfold chk_items. destruct v as [| | | |l|] eqn:EV; try reflexivity. try rewrite <- EV in *.
  assert (HL : forall x, In x l -> jdepth x < jdepth v) by (intros; rewrite EV; now apply jdepth_elem).
  assert (HK : forall n x, In x (skipn n l) -> jdepth x < jdepth v) by (intros n x Hx; apply HL; eapply skipn_In; eauto).
  destruct (d_items d).
  - assert (Hz : Forall2 below (match arr_of p with Some fs => fs | None => [] end) (match arr_of p' with Some fs => fs | None => [] end)).
    { destruct (osub_arr _ _ _ Hp); [constructor|auto]. }
    rewrite (zip_agree _ _ _ HL Hz), (F2_length _ _ _ Hz). f_equal. destruct Hi as [|x y Hxy]; [auto|]. apply elems_agree; auto. apply HK.
  - destruct Hi as [|x y Hxy]; [auto|]. destruct (proj1 (proj2 Hxy)) as [|fs fs' HF].
    + now apply elems_agree.
    + rewrite (zip_agree _ _ _ HL HF), (F2_length _ _ _ HF). f_equal. destruct Ha as [|x' y' Hxy']; [auto|]. apply elems_agree; auto. apply HK.
  - destruct Hi as [|x y Hxy]; [auto|]. now apply elems_agree.
Qed.
Lemma contains_agree o o' : osub below o o' -> chk_contains o v = chk_contains o' v.
Proof.
  intros H. unfold chk_contains. destruct v as [| | | |l|] eqn:EV; try reflexivity. try rewrite <- EV in *. destruct H as [|a b [H _]]; [reflexivity|].
  apply existsb_eq. intros x Hx. apply H. rewrite EV. now apply jdepth_elem.
Qed.
Lemma kv_get R k fs fs' : Forall2 (kv_rel R) fs fs' -> orel R (mget k fs) (mget k fs').
Proof.
  induction 1 as [|[a f] [b g] l l' [H1 H2] _ IH]; cbn; [constructor|]. cbn in H1, H2; subst.
  destruct (String.eqb k b); [now constructor|exact IH].
Qed.
Lemma inprops_agree R o o' k : osub R o o' -> in_props o k = in_props o' k.
Proof.
  intros H. unfold in_props. destruct (osub_obj _ _ _ H) as [|l l' HF]; [reflexivity|]. unfold mhas. destruct (kv_get _ k _ _ HF); auto.
Qed.
Lemma inpats_agree R o o' k : osub R o o' -> in_patterns E o k = in_patterns E' o' k.
Proof.
  intros H. unfold in_patterns. destruct (osub_obj _ _ _ H) as [|l l' HF]; [reflexivity|].
  eapply existsb_F2; [exact HF|]. intros a b [-> _]; auto.
Qed.
Lemma props_agree o o' : osub below o o' -> chk_props o v = chk_props o' v.
Proof.
  intros H. unfold chk_props. destruct v as [| | | | |m] eqn:EV; try reflexivity. try rewrite <- EV in *.
  destruct (osub_obj _ _ _ H) as [|l l' HF]; [reflexivity|]. apply forallb_eq. intros [k x] Hx. cbn [fst snd].
  destruct (kv_get _ k _ _ HF) as [|f g Hfg]; [auto|]. apply Hfg. rewrite EV. eapply jdepth_entry; eauto.
Qed.
Lemma patterns_agree o o' : osub below o o' -> chk_patterns E o v = chk_patterns E' o' v.
Proof.
  intros H. unfold chk_patterns. destruct v as [| | | | |m] eqn:EV; try reflexivity. try rewrite <- EV in *.
  destruct (osub_obj _ _ _ H) as [|l l' HF]; [reflexivity|]. apply forallb_eq. intros [k x] Hx. cbn [fst snd].
  eapply forallb_F2; [exact HF|]. intros a b [-> H2]. rewrite Hrx. destruct (H2 x) as [-> _]; [rewrite EV; eapply jdepth_entry; eauto|reflexivity].
Qed.
Lemma additional_agree o o' q q' a a' : osub below o o' -> osub below q q' -> osub below a a' ->
  chk_additional E o q a v = chk_additional E' o' q' a' v.
Proof.
  intros Ho Hq Ha. unfold chk_additional. destruct v as [| | | | |m] eqn:EV; try reflexivity. try rewrite <- EV in *.
  destruct Ha as [|x y [H _]]; [reflexivity|]. apply forallb_eq. intros [k j] Hj. cbn [fst snd].
  rewrite (inprops_agree _ _ _ k Ho), (inpats_agree _ _ _ k Hq). destruct (H j) as [-> _]; [rewrite EV; eapply jdepth_entry; eauto|reflexivity].
Qed.
Lemma names_agree o o' : osub below o o' -> chk_names o v = chk_names o' v.
Proof.
  intros H. unfold chk_names. destruct v as [| | | | |m] eqn:EV; try reflexivity. try rewrite <- EV in *.
  destruct H as [|x y [H _]]; [reflexivity|]. apply forallb_eq. intros [k j] Hj. apply H. rewrite EV. apply jdepth_name.
Qed.
Lemma uneval_agree o o' f g : osub below o o' -> (forall k, f k = g k) -> chk_uneval o f v = chk_uneval o' g v.
Proof.
  intros H HF. unfold chk_uneval. destruct v as [| | | | |m] eqn:EV; try reflexivity. try rewrite <- EV in *.
  destruct H as [|x y [H _]]; [reflexivity|]. apply forallb_eq. intros [k j] Hj. cbn [fst snd]. rewrite HF.
  destruct (H j) as [-> _]; [rewrite EV; eapply jdepth_entry; eauto|reflexivity].
Qed.
Lemma assertion_agree k raw : assertion E k raw v = assertion E' k raw v.
Proof.
  unfold assertion. destruct raw, v; try reflexivity;
  repeat match goal with |- context [if ?b then _ else _] => destruct b end; auto; try now rewrite Hrx; now rewrite Hfmt.
Qed.

Variables (R : string -> option json) (S S' : string -> option sub).
Hypothesis HHere : forall k, In k in_place -> osub here (S k) (S' k).
Hypothesis HBelow : forall k, osub below (S k) (S' k).
Hypothesis HRef : forall r, R "$ref" = Some (JStr r) -> req (e_ref E r v) (e_ref E' r v).

Lemma ref_agree : chk_ref E (R "$ref") v = chk_ref E' (R "$ref") v.
Proof. unfold chk_ref. destruct (R "$ref") as [[]|] eqn:ER; try reflexivity. now apply HRef. Qed.
Lemma evref_agree k : ev_ref E (R "$ref") v k = ev_ref E' (R "$ref") v k.
Proof. unfold ev_ref. destruct (R "$ref") as [[]|] eqn:ER; try reflexivity. unfold evs. destruct (HRef _ eq_refl) as [-> H]. now rewrite H. Qed.

Ltac ip := apply HHere; cbn; tauto.
Lemma main_agree : chk_main d E R S v = chk_main d E' R S' v.
Proof.
  unfold chk_main. rewrite ref_agree.
  rewrite (all_agree (S "allOf") (S' "allOf")) by ip. rewrite (any_agree (S "anyOf") (S' "anyOf")) by ip.
  rewrite (one_agree (S "oneOf") (S' "oneOf")) by ip. rewrite (not_agree (S "not") (S' "not")) by ip.
  rewrite (if_agree (when (d_extra d) (S "if")) (when (d_extra d) (S' "if")) (S "then") (S' "then") (S "else") (S' "else"));
    [|apply osub_when; ip|ip|ip].
  rewrite (items_agree (S "prefixItems") (S' "prefixItems") (S "items") (S' "items") (S "additionalItems") (S' "additionalItems")) by auto.
  rewrite (contains_agree (when (d_extra d) (S "contains")) (when (d_extra d) (S' "contains"))) by (apply osub_when; auto).
  rewrite (props_agree (S "properties") (S' "properties")) by auto.
  rewrite (patterns_agree (when (d_extra d) (S "patternProperties")) (when (d_extra d) (S' "patternProperties"))) by (apply osub_when; auto).
  rewrite (additional_agree (S "properties") (S' "properties") (when (d_extra d) (S "patternProperties")) (when (d_extra d) (S' "patternProperties"))
     (S "additionalProperties") (S' "additionalProperties")); [|auto|apply osub_when; auto|auto].
  rewrite (names_agree (when (d_extra d) (S "propertyNames")) (when (d_extra d) (S' "propertyNames"))) by (apply osub_when; auto).
  rewrite (dependent_agree (when (d_depend d) (S "dependentSchemas")) (when (d_depend d) (S' "dependentSchemas"))) by (apply osub_when; ip).
  assert (chk_assertions E R v = chk_assertions E' R v) as ->; [|reflexivity].
  unfold chk_assertions. apply forallb_eq. intros k _. destruct (R k); [apply assertion_agree|reflexivity].
Qed.

Lemma evmain_agree k : ev_main d E R S v k = ev_main d E' R S' v k.
Proof.
  unfold ev_main. rewrite evref_agree. rewrite (inprops_agree _ (S "properties") (S' "properties") k (HBelow _)).
  rewrite (inpats_agree below (when (d_extra d) (S "patternProperties")) (when (d_extra d) (S' "patternProperties"))) by (apply osub_when; auto).
  rewrite (is_some_eq _ _ _ (HBelow "additionalProperties")).
  rewrite (evlist_agree (S "allOf") (S' "allOf")) by ip. rewrite (evlist_agree (S "anyOf") (S' "anyOf")) by ip.
  rewrite (evlist_agree (S "oneOf") (S' "oneOf")) by ip.
  rewrite (evif_agree (when (d_extra d) (S "if")) (when (d_extra d) (S' "if")) (S "then") (S' "then") (S "else") (S' "else"));
    [|apply osub_when; ip|ip|ip].
  rewrite (evdependent_agree (when (d_depend d) (S "dependentSchemas")) (when (d_depend d) (S' "dependentSchemas"))) by (apply osub_when; ip).
  reflexivity.
Qed.

Lemma obj_agree : req (eval_obj d E R S v) (eval_obj d E' R S' v).
Proof.
  unfold eval_obj. destruct (d_ref_alone d && _).
  - split; cbn [ok ev]; [apply ref_agree|]. intros k. now rewrite ref_agree, evref_agree.
  - assert (HU : osub below (when (d_uneval d) (S "unevaluatedProperties")) (when (d_uneval d) (S' "unevaluatedProperties"))) by (apply osub_when; auto).
    split; cbn [ok ev].
    + rewrite main_agree. f_equal. apply uneval_agree; [exact HU|]. apply evmain_agree.
    + intros k. rewrite main_agree, evmain_agree, (is_some_eq _ _ _ HU). f_equal. f_equal. apply uneval_agree; [exact HU|]. apply evmain_agree.
Qed.
End Agree.

(** A schema means the same under environments that agree on its references. *)
Definition agrees d E E' (s : json) : Prop :=
  forall v, (forall r, In r (refs_here s) -> req (e_ref E r v) (e_ref E' r v)) ->
  (forall r w, jdepth w < jdepth v -> req (e_ref E r w) (e_ref E' r w)) ->
  req (eval d E s v) (eval d E' s v).

Lemma eval_agree d E E' :
  (forall p s, e_rx E p s = e_rx E' p s) -> (forall f w, e_fmt E f w = e_fmt E' f w) ->
  forall s, agrees d E E' s.
Proof.
  intros Hrx Hfmt s.
  cut (agrees d E E' s /\ (forall l, s = JArr l -> forall y, In y l -> agrees d E E' y)
       /\ (forall m, s = JObj m -> forall k y, In (k, y) m -> agrees d E E' y)); [intros H; apply H|].
  induction s as [| | | |l IH|m IH] using json_ind'; (split; [|split]);
    try discriminate; try (intros v HR HB; split; reflexivity).
  - rewrite Forall_forall in IH. intros ? [= <-] y Hy. now apply (IH y).
  - rewrite Forall_forall in IH. intros v HR HB.
    assert (HMap : forall (Rl : (json -> result) -> (json -> result) -> Prop) k,
      (forall x, mget k m = Some x -> Rl (eval d E x) (eval d E' x)
         /\ (forall l, x = JArr l -> forall y, In y l -> Rl (eval d E y) (eval d E' y))
         /\ (forall m', x = JObj m' -> forall k y, In (k, y) m' -> Rl (eval d E y) (eval d E' y))) ->
      osub Rl (mget k (map (fun kv => (fst kv, Sub (eval d E (snd kv))
                      match snd kv with JArr l => Some (map (eval d E) l) | _ => None end
                      match snd kv with JObj m' => Some (map (fun kv' => (fst kv', eval d E (snd kv'))) m') | _ => None end)) m))
              (mget k (map (fun kv => (fst kv, Sub (eval d E' (snd kv))
                      match snd kv with JArr l => Some (map (eval d E') l) | _ => None end
                      match snd kv with JObj m' => Some (map (fun kv' => (fst kv', eval d E' (snd kv'))) m') | _ => None end)) m))).
    { clear. intros Rl k. induction m as [|[k' x] m IH]; intros H; cbn [map mget fst snd]; [constructor|]. cbn [mget] in H.
      destruct (String.eqb k k') eqn:EK; [|apply IH; intros y Hy; apply H; auto].
      destruct (H x eq_refl) as (H1 & H2 & H3). constructor. split; [exact H1|]. cbn [s_arr s_obj]. split.
      - destruct x as [| | | |l|]; constructor. specialize (H2 l eq_refl). clear -H2.
        induction l as [|y l IH]; cbn; constructor; [apply H2; now left|]. apply IH. intros; apply H2; now right.
      - destruct x as [| | | | |m']; constructor. specialize (H3 m' eq_refl). clear -H3.
        induction m' as [|[k y] l IH]; cbn; constructor; [split; [reflexivity|]; cbn; eapply H3; now left|].
        apply IH. intros k' y' Hy. eapply H3. right. exact Hy. }
    cbn [eval]. apply obj_agree; auto.
    + intros k Hk. apply HMap. intros x Hx. pose proof (mget_In _ _ _ Hx) as HI.
      destruct (IH _ HI) as (I1 & I2 & I3). cbn [snd] in *.
      assert (HRx : forall r, In r (refs_here x ++ match x with
                      | JArr l => flat_map refs_here l
                      | JObj m' => flat_map (fun kv' => match kv' with (_, x') => refs_here x' end) m'
                      | _ => []
                      end) -> req (e_ref E r v) (e_ref E' r v)).
      { intros r Hr. apply HR. cbn [refs_here]. apply in_flat_map. exists (k, x). split; [exact HI|]. apply in_app_iff. right.
        replace (existsb (String.eqb k) in_place) with true; [exact Hr|]. symmetry. apply existsb_exists. exists k. split; [exact Hk|apply String.eqb_refl]. }
      unfold here. split; [|split].
      * apply I1; auto. intros r Hr. apply HRx, in_app_iff. now left.
      * intros l -> y Hy. apply (I2 l eq_refl y Hy); auto. intros r Hr. apply HRx, in_app_iff. right. apply in_flat_map. eauto.
      * intros m' -> k' y Hy. apply (I3 m' eq_refl k' y Hy); auto. intros r Hr. apply HRx, in_app_iff. right. apply in_flat_map. exists (k', y). eauto.
    + intros k. apply HMap. intros x Hx. pose proof (mget_In _ _ _ Hx) as HI.
      destruct (IH _ HI) as (I1 & I2 & I3). cbn [snd] in *. unfold below. split; [|split].
      * intros w Hw. apply I1; intros; apply HB; lia.
      * intros l -> y Hy w Hw. apply (I2 l eq_refl y Hy); intros; apply HB; lia.
      * intros m' -> k' y Hy w Hw. apply (I3 m' eq_refl k' y Hy); intros; apply HB; lia.
    + intros r Hr. apply HR. cbn [refs_here]. apply in_flat_map. exists ("$ref", JStr r). split; [now apply mget_In|]. apply in_app_iff. left. now left.
  - rewrite Forall_forall in IH. intros ? [= <-] k y Hy. now apply (IH (k, y)).
Qed.

(** ** The validator of a table *)
(** The schemas that can be referred to; those that an entry refers to at the instance itself are
    listed after it. *)
Fixpoint ordered (table : list (string * json)) : bool :=
  match table with
  | [] => true
  | (r, s) :: t => negb (mhas r t) && forallb (fun r' => mhas r' t) (refs_here s) && ordered t
  end.

(** The number of entries from the one for [r] on *)
Fixpoint rank (r : string) (t : list (string * json)) : nat :=
  match t with
  | [] => 0
  | (k, _) :: t' => if String.eqb r k then S (List.length t') else rank r t'
  end.

Lemma rank_le r t : rank r t <= List.length t.
Proof. induction t as [|[k x] t IH]; cbn; [lia|]. destruct (String.eqb r k); lia. Qed.

Lemma ordered_rank t r s r' : ordered t = true -> mget r t = Some s -> In r' (refs_here s) -> rank r' t < rank r t.
Proof.
  induction t as [|[k x] t IH]; cbn [ordered mget rank]; [discriminate|].
  rewrite !andb_true_iff, negb_true_iff, forallb_forall. intros [[H1 H2] H3] HG HI.
  assert (HK : mhas r' t = true -> String.eqb r' k = false).
  { intros H. destruct (String.eqb_spec r' k) as [->|]; congruence. }
  destruct (String.eqb_spec r k) as [->|HN].
  - injection HG as ->. rewrite (HK (H2 _ HI)). pose proof (rank_le r' t). lia.
  - specialize (IH H3 HG HI). destruct (String.eqb_spec r' k) as [->|]; [|exact IH]. exfalso.
    (* an entry only refers to entries after it *)
    assert (HX : mhas k t = true); [|congruence]. clear - H3 HG HI. induction t as [|[a y] t IH]; [discriminate|].
    cbn [mget ordered] in *. rewrite !andb_true_iff, forallb_forall in H3. destruct H3 as [[_ H2] H3]. unfold mhas in *. cbn [mget].
    destruct (String.eqb k a); [reflexivity|]. destruct (String.eqb r a); [injection HG as ->; now apply H2|auto].
Qed.

Section Table.
Variable d : dialect.
Variable rx : string -> string -> bool.
Variable fmt : string -> json -> bool.
Variable table : list (string * json).
Hypothesis HO : ordered table = true.

Fixpoint follow (n : nat) (r : string) (v : json) : result :=
  match n with
  | 0 => Res false none_ev
  | S n' => match mget r table with
            | Some s => eval d (Env (follow n') rx fmt) s v
            | None => Res false none_ev
            end
  end.

Definition enough (r : string) (v : json) : nat := jdepth v * S (List.length table) + rank r table.
Definition table_env : env :=
  Env (fun r v => follow (jdepth v * S (List.length table) + List.length table) r v) rx fmt.

Lemma rank_pos r s : mget r table = Some s -> 1 <= rank r table.
Proof.
  induction table as [|[k x] t IH]; cbn; [discriminate|]. destruct (String.eqb r k); [lia|]. intros H. apply IH; auto.
  cbn in HO. apply andb_true_iff in HO. apply HO.
Qed.

Lemma enough_below r v r' w : jdepth w < jdepth v -> enough r' w < enough r v - rank r table.
Proof. unfold enough. intros H. pose proof (rank_le r' table). nia. Qed.

Lemma follow_stable n : forall n' r v, enough r v <= n -> enough r v <= n' -> req (follow n r v) (follow n' r v).
Proof.
  induction n as [|n IH]; intros n' r v H H'.
  - destruct n' as [|n']; [apply req_refl|]. cbn [follow]. destruct (mget r table) eqn:EM; [|apply req_refl].
    pose proof (rank_pos _ _ EM). unfold enough in H. lia.
  - cbn [follow]. destruct (mget r table) as [s|] eqn:EM.
    + destruct n' as [|n']; [pose proof (rank_pos _ _ EM); unfold enough in H'; lia|]. cbn [follow]. rewrite EM.
      pose proof (rank_pos _ _ EM) as HP. apply eval_agree; auto.
      * intros r' Hr. cbn [e_ref]. pose proof (ordered_rank _ _ _ _ HO EM Hr). apply IH; unfold enough in *; lia.
      * intros r' w Hw. cbn [e_ref]. pose proof (enough_below r v r' w Hw). apply IH; unfold enough in *; lia.
    + destruct n' as [|n']; [apply req_refl|]. cbn [follow]. rewrite EM. apply req_refl.
Qed.

Theorem table_env_spec r s v : mget r table = Some s -> req (e_ref table_env r v) (eval d table_env s v).
Proof.
  intros EM. pose proof (rank_pos _ _ EM) as HP. pose proof (rank_le r table) as HL. cbn [table_env e_ref].
  destruct (jdepth v * S (List.length table) + List.length table) as [|n] eqn:EN; [lia|]. cbn [follow]. rewrite EM.
  apply eval_agree; auto.
  - intros r' Hr. cbn [e_ref table_env]. pose proof (ordered_rank _ _ _ _ HO EM Hr). apply follow_stable; unfold enough; pose proof (rank_le r' table); lia.
  - intros r' w Hw. cbn [e_ref table_env]. apply follow_stable; unfold enough; pose proof (rank_le r' table); nia.
Qed.
End Table.
