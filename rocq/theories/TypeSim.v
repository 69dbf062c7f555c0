(** Types that forward to the same type have the same schema, whatever the state of the generator. *)
From Coq Require Import String Ascii List ZArith Bool Lia.
From Verif Require Import Json JsonFacts SchemaApi Pointer Private Generate SerValue Types TypeId.
Import ListNotations.
Open Scope string_scope.
Open Scope list_scope.

(** The generator without the model's ghost trace *)
Definition visible {Ty St} (g : gen Ty St) : gen Ty St :=
  Gen (g_set g) (g_tst g) (g_defs g) (g_pending g) (g_names g) (g_used g) (g_roots g) [].

Section Sim.
Context {X St : Type}.
Variable items : nat -> item X.
Notation prog := (prog rty St).
Notation gen := (gen rty St).
Notation info := (info (St := St) items).

Lemma string_key_erase t : string_key (erase t) = string_key t.
Proof. induction t using rty_ind'; cbn [erase string_key]; auto; try (destruct t; tauto || reflexivity). now destruct n. Qed.
Lemma name_erase t : type_name items (erase t) = type_name items t.
Proof.
  induction t using rty_ind'; cbn [erase type_name]; try (destruct t; tauto || reflexivity); try congruence.
  - destruct n; cbn [type_name]; congruence.
  - do 2 f_equal. rewrite map_map. apply map_ext_Forall, H.
  - rewrite IHt1, IHt2, string_key_erase. reflexivity.
Qed.
Lemma id_erase t : type_id items (erase t) = type_id items t.
Proof.
  induction t using rty_ind'; cbn [erase type_id]; try (destruct t; tauto || reflexivity); try congruence.
  - destruct n; cbn [type_id]; congruence.
  - do 3 f_equal. rewrite map_map. apply map_ext_Forall, H.
  - rewrite IHt1, IHt2. reflexivity.
  - now rewrite name_erase.
Qed.

Lemma inline_erase t : type_inline items (erase t) = type_inline items t.
Proof. induction t using rty_ind'; cbn [erase type_inline]; auto. - destruct t; tauto || reflexivity. - destruct n; reflexivity. Qed.

Definition like (t t' : rty) : Prop := erase t = erase t'.

Inductive psim : prog -> prog -> Prop :=
| SRet s : psim (Ret s) (Ret s)
| SSub t t' k k' : like t t' -> (forall s, psim (k s) (k' s)) -> psim (Sub t k) (Sub t' k')
| SCall t t' k k' : like t t' -> (forall s, psim (k s) (k' s)) -> psim (Call t k) (Call t' k')
| SRoot t t' k k' : like t t' -> (forall s, psim (k s) (k' s)) -> psim (Root t k) (Root t' k')
| SReadSettings k k' : (forall s, psim (k s) (k' s)) -> psim (ReadSettings k) (ReadSettings k')
| SReadDefs k k' : (forall s, psim (k s) (k' s)) -> psim (ReadDefs k) (ReadDefs k')
| SSetDefs f k k' : psim k k' -> psim (SetDefs f k) (SetDefs f k')
| STakeDefs b k k' : (forall s, psim (k s) (k' s)) -> psim (TakeDefs b k) (TakeDefs b k')
| SFork p p' k k' : psim p p' -> (forall s, psim (k s) (k' s)) -> psim (Fork p k) (Fork p' k').

Lemma psim_refl p : psim p p.
Proof. induction p; constructor; auto; reflexivity. Qed.

Lemma psim_subs ts ts' (k k' : list json -> prog) : Forall2 like ts ts' -> (forall l, psim (k l) (k' l)) -> psim (subs ts k) (subs ts' k').
Proof.
  intros H. revert k k'. induction H as [|t t' ts ts' H1 H2 IH]; intros k k' HK; cbn [subs]; auto. constructor; auto.
Qed.

Lemma erase_idem t : erase (erase t) = erase t.
Proof.
  induction t using rty_ind'; cbn [erase]; auto; try congruence.
  - destruct t; tauto || reflexivity.
  - destruct n; cbn [erase]; congruence.
  - rewrite map_map. f_equal. apply map_ext_Forall, H.
Qed.

Lemma body_erase t : psim (body items t) (body items (erase t)).
Proof.
  assert (HL : forall t, like t (erase t)) by (intros u; unfold like; now rewrite erase_idem).
  induction t using rty_ind'; cbn [erase body]; try (repeat (constructor; auto; intros); fail).
  - destruct t; try contradiction; try apply psim_refl.
  - destruct n; cbn [body]; repeat (constructor; auto; intros).
  - apply psim_subs; [|intros l; constructor]. clear H. induction ts as [|t ts IH]; constructor; auto.
  - exact IHt.
  - exact IHt.
  - apply psim_refl.
Qed.

Definition same (g g' : gen) : Prop := visible g = visible g'.
Definition osame (a b : option (json * gen)) : Prop :=
  match a, b with
  | Some (s, g), Some (s', g') => s = s' /\ same g g'
  | None, None => True
  | _, _ => False
  end.

Section Handler.
Variable js js' : rty -> gen -> option (json * gen).
Hypothesis HJ : forall t t' g g', like t t' -> same g g' -> osame (js t g) (js' t' g').

Lemma like_facts t t' : like t t' -> type_id items t = type_id items t' /\ type_name items t = type_name items t' /\ type_inline items t = type_inline items t'.
Proof. intros H. rewrite <- (id_erase t), <- (id_erase t'), <- (name_erase t), <- (name_erase t'), <- (inline_erase t), <- (inline_erase t'). rewrite H. auto. Qed.

Ltac parts H := unfold same, visible in H; injection H as ? ? ? ? ? ? ?.
Ltac gen_eq := unfold same, visible, with_defs, with_pending, with_roots, with_name, with_tst, emit; cbn [g_set g_tst g_defs g_pending g_names g_used g_roots g_log]; congruence.

Lemma internal_same t t' u g g' : like t t' -> same g g' ->
  osame (json_schema_internal js t u g) (json_schema_internal js' t' u g').
Proof.
  intros HL HS. unfold json_schema_internal. assert (HP : g_pending g = g_pending g') by (parts HS; auto). rewrite HP.
  match goal with |- osame (match js t ?a with _ => _ end) (match js' t' ?b with _ => _ end) =>
    assert (HG : same a b); [|specialize (HJ t t' a b HL HG)] end.
  { destruct (negb _); [|exact HS]. parts HS. gen_eq. }
  destruct (js t _) as [[s1 g1]|], (js' t' _) as [[s2 g2]|]; cbn in *; try tauto. destruct HJ as [-> H2]. split; auto.
  destruct (negb _); [|exact H2]. parts H2. gen_eq.
Qed.

Lemma insert_same t t' n u g g' : like t t' -> same g g' ->
  match insert_new_subschema_for js t n u g, insert_new_subschema_for js' t' n u g' with
  | Some a, Some b => same a b | None, None => True | _, _ => False end.
Proof.
  intros HL HS. unfold insert_new_subschema_for.
  match goal with |- match match json_schema_internal js t u ?a with _ => _ end with _ => _ end =>
    assert (HG : same a (with_defs (mset n (JBool false) (g_defs g')) g')) end.
  { parts HS. gen_eq. }
  pose proof (internal_same t t' u _ _ HL HG) as HX. destruct (json_schema_internal js _ _ _) as [[s1 g1]|], (json_schema_internal js' _ _ _) as [[s2 g2]|]; cbn in *; try tauto.
  destruct HX as [-> H2]. parts H2. gen_eq.
Qed.

Lemma sub_same t t' g g' : like t t' -> same g g' -> osame (subschema_for info js t g) (subschema_for info js' t' g').
Proof.
  intros HL HS. destruct (like_facts t t' HL) as (H1 & H2 & H3). unfold subschema_for, find_ref, uid_of. cbn [Types.info t_id t_name t_inline].
  rewrite H1, H2, H3. pose proof HS as HS'. parts HS'.
  replace (g_set g') with (g_set g) by auto. replace (g_pending g') with (g_pending g) by auto. replace (g_roots g') with (g_roots g) by auto.
  replace (g_names g') with (g_names g) by auto. replace (g_used g') with (g_used g) by auto.
  destruct (negb _); [now apply internal_same|]. destruct (match g_roots g with [] => false | r :: _ => uid_eqb r _ end).
  { cbn. split; [reflexivity|gen_eq]. }
  assert (HI : forall n a b r, same a b -> osame
     (match (if mhas n (g_defs a) then None else Some n) with
      | Some name => match insert_new_subschema_for js t name (type_id items t', s_contract (g_set g)) (emit (EvRef (g_roots g) t r) a) with Some g3 => Some (new_ref r, g3) | None => None end
      | None => Some (new_ref r, emit (EvRef (g_roots g) t r) a) end)
     (match (if mhas n (g_defs b) then None else Some n) with
      | Some name => match insert_new_subschema_for js' t' name (type_id items t', s_contract (g_set g)) (emit (EvRef (g_roots g) t' r) b) with Some g3 => Some (new_ref r, g3) | None => None end
      | None => Some (new_ref r, emit (EvRef (g_roots g) t' r) b) end)).
  { intros n a b r HAB. pose proof HAB as HAB'. parts HAB'. replace (g_defs b) with (g_defs a) by auto. destruct (mhas n (g_defs a)).
    - cbn. split; [reflexivity|gen_eq].
    - match goal with |- osame (match insert_new_subschema_for js t n ?u ?x with _ => _ end) (match insert_new_subschema_for js' t' n ?u ?y with _ => _ end) =>
        assert (HG : same x y) by gen_eq; pose proof (insert_same t t' n u x y HL HG) as HX end.
      destruct (insert_new_subschema_for js _ _ _ _), (insert_new_subschema_for js' _ _ _ _); cbn in *; try tauto. }
  destruct (uget _ _).
  - apply HI, HS.
  - apply HI. gen_eq.
Qed.

Lemma transforms_same s g g' : same g g' ->
  fst (apply_transforms s g) = fst (apply_transforms s g') /\ same (snd (apply_transforms s g)) (snd (apply_transforms s g')).
Proof.
  intros HS. pose proof HS as HS'. parts HS'. unfold apply_transforms. replace (g_set g') with (g_set g) by auto. replace (g_tst g') with (g_tst g) by auto.
  destruct (fold_left _ _ _) as [a b]. cbn. split; [reflexivity|gen_eq].
Qed.

Lemma take_same b g g' : same g g' ->
  fst (take_definitions b g) = fst (take_definitions b g') /\ same (snd (take_definitions b g)) (snd (take_definitions b g')).
Proof.
  intros HS. pose proof HS as HS'. parts HS'. unfold take_definitions. replace (g_defs g') with (g_defs g) by auto.
  assert (HG : same (with_defs [] g) (with_defs [] g')) by gen_eq. destruct b; [|cbn; auto].
  revert HG. generalize (with_defs [] g) (with_defs [] g'). generalize (g_defs g). clear. intros d.
  induction d as [|[k v] d IH]; intros g g' HS; [cbn; auto|]. cbn [transform_values].
  assert (HX : exists v' a b, (if is_schema v then apply_transforms v g else (v, g)) = (v', a)
     /\ (if is_schema v then apply_transforms v g' else (v, g')) = (v', b) /\ same a b).
  { destruct (is_schema v); [|eauto 10]. pose proof (transforms_same v g g' HS) as [H1 H2].
    destruct (apply_transforms v g), (apply_transforms v g'). cbn in *. subst. eauto 10. }
  destruct HX as (v' & a & b & -> & -> & HAB). specialize (IH a b HAB). destruct (transform_values d a), (transform_values d b). cbn in *.
  destruct IH as [-> H]. auto.
Qed.

Lemma root_same t t' g g' : like t t' -> same g g' -> osame (root_schema_for info js t g) (root_schema_for info js' t' g').
Proof.
  intros HL HS. destruct (like_facts t t' HL) as (H1 & H2 & H3). pose proof HS as HS'. parts HS'.
  unfold root_schema_for, root_object, uid_of. cbn [Types.info t_id t_name]. rewrite H1, H2. replace (g_set g') with (g_set g) by auto.
  replace (g_roots g') with (g_roots g) by auto.
  match goal with |- osame (match json_schema_internal js t ?u ?x with _ => _ end) (match json_schema_internal js' t' ?u ?y with _ => _ end) =>
    assert (HG : same x y) by gen_eq; pose proof (internal_same t t' u x y HL HG) as HX end.
  destruct (json_schema_internal js _ _ _) as [[s1 g1]|], (json_schema_internal js' _ _ _) as [[s2 g2]|]; cbn in HX; try tauto.
  destruct HX as [-> HX]. pose proof HX as HX'. parts HX'. replace (g_set g2) with (g_set g1) by auto. replace (g_defs g2) with (g_defs g1) by auto.
  match goal with |- osame (let '(_, _) := apply_transforms ?d g1 in _) _ => pose proof (transforms_same d g1 g2 HX) as [T1 T2];
    destruct (apply_transforms d g1) as [d1 x1], (apply_transforms d g2) as [d2 x2] end.
  cbn in *. subst d2. split; auto. parts T2. gen_eq.
Qed.

Lemma run_same p p' : psim p p' -> forall g g', same g g' -> osame (run_prog info js p g) (run_prog info js' p' g').
Proof.
  induction 1 as [s|t t' k k' HL HK IH|t t' k k' HL HK IH|t t' k k' HL HK IH|k k' HK IH|k k' HK IH|f k k' HK IH|b k k' HK IH|p p' k k' HP IHP HK IH];
    intros g g' HS; cbn [run_prog].
  - cbn. auto.
  - pose proof (sub_same t t' g g' HL HS) as HX. destruct (subschema_for _ js _ _) as [[s1 g1]|], (subschema_for _ js' _ _) as [[s2 g2]|]; cbn in HX; try tauto.
    destruct HX as [-> HX]. now apply IH.
  - pose proof (HJ t t' g g' HL HS) as HX. destruct (js _ _) as [[s1 g1]|], (js' _ _) as [[s2 g2]|]; cbn in HX; try tauto.
    destruct HX as [-> HX]. now apply IH.
  - pose proof (root_same t t' g g' HL HS) as HX. destruct (root_schema_for _ js _ _) as [[s1 g1]|], (root_schema_for _ js' _ _) as [[s2 g2]|]; cbn in HX; try tauto.
    destruct HX as [-> HX]. now apply IH.
  - replace (g_set g') with (g_set g) by (parts HS; auto). now apply IH.
  - replace (g_defs g') with (g_defs g) by (parts HS; auto). now apply IH.
  - apply IH. parts HS. gen_eq.
  - pose proof (take_same b g g' HS) as [H1 H2]. destruct (take_definitions b g), (take_definitions b g'). cbn in *. subst. now apply IH.
  - assert (HC : same (clone_gen g) (clone_gen g')). { parts HS. unfold same, visible, clone_gen. cbn. congruence. }
    specialize (IHP _ _ HC). destruct (run_prog _ js _ _) as [[s1 g1]|], (run_prog _ js' _ _) as [[s2 g2]|]; cbn in IHP; try tauto.
    destruct IHP as [-> _]. now apply IH.
Qed.
End Handler.

Lemma psim_sym p p' : psim p p' -> psim p' p.
Proof. induction 1; constructor; auto; now symmetry. Qed.
Lemma psim_trans p q : psim p q -> forall r, psim q r -> psim p r.
Proof.
  induction 1; intros r HR; inversion HR; subst; constructor; auto; try (unfold like in *; congruence).
Qed.

Theorem schema_same n : forall t t' g g', like t t' -> same g g' -> osame (json_schema info n t g) (json_schema info n t' g').
Proof.
  induction n as [|n IH]; intros t t' g g' HL HS; cbn [json_schema]; [exact I|]. cbn [Types.info t_body].
  assert (HP : psim (body items t) (body items t')).
  { eapply psim_trans; [apply body_erase|]. rewrite HL. apply psim_sym, body_erase. }
  assert (HG : same (emit (EvRun t) g) (emit (EvRun t') g')) by exact HS.
  pose proof (run_same _ _ IH _ _ HP _ _ HG) as HX.
  destruct (run_prog _ _ _ _) as [[s1 g1]|], (run_prog _ _ (body items t') _) as [[s2 g2]|]; cbn in *; try tauto.
Qed.
End Sim.
