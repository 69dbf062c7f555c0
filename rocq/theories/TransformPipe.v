(** The transform lists of SchemaSettings::draft07, draft2019_09 and openapi3. *)
From Coq Require Import String Ascii List ZArith Bool Lia.
From Verif Require Import Json JsonFacts SchemaApi Validate ValidateFacts Transform TransformSpec
  TransformProofs TransformSem TransformNullable TransformUneval TransformPost.
Import ListNotations.
Open Scope string_scope.

(** ** Dialects that differ only in keywords a schema does not use *)
Definition agree (d d' : dialect) (m : map_t) : Prop :=
  (d_items d = d_items d' \/
     (mget "prefixItems" m = None /\ match mget "items" m with Some (JArr _) => False | _ => True end))
  /\ (d_uneval d = d_uneval d' \/ mget "unevaluatedProperties" m = None)
  /\ (d_depend d = d_depend d' \/ mget "dependentSchemas" m = None)
  /\ (d_const d = d_const d' \/ mget "const" m = None)
  /\ (d_nullable d = d_nullable d' \/ mget "nullable" m = None)
  /\ (d_extra d = d_extra d' \/ absent ["patternProperties"; "propertyNames"; "contains"; "if"] m).

Lemma items_any d d' p i a v :
  d_items d = d_items d' \/ (p = None /\ match arr_of i with Some _ => False | None => True end) ->
  chk_items d p i a v = chk_items d' p i a v.
Proof.
  intros [H|[-> H]]; destruct v; cbn [chk_items]; auto; [now rewrite H|].
  destruct i as [i|].
  - cbn [arr_of] in *. destruct (s_arr i) eqn:Hi; [contradiction|]. cbn [arr_of zip_ok List.length skipn andb].
    destruct (d_items d), (d_items d'); rewrite ?Hi; reflexivity.
  - cbn. destruct (d_items d), (d_items d'); reflexivity.
Qed.

Lemma when_none b : when b None = None.
Proof. now destruct b. Qed.

Lemma agree_sem d d' E s : d_ref_alone d = d_ref_alone d' ->
  everywhere (fun m => agree d d' m /\ no_hidden m) s ->
  feq (eval d' E s) (eval d E s).
Proof.
  intros Hra. induction 1 as [s Hs|m [HA HU] _ IH]; [now apply eval_leaf|].
  assert (Hid : tmap (fun x => x) m = m) by (apply tmap_id; auto).
  pose proof (tmap_sem d d' E (fun x => x) m (fun y H => H) IH (no_hidden_ok d d' E m HU)) as H.
  rewrite Hid in H.
  intros v. eapply req_trans; [apply eval_JObj|]. eapply req_trans; [|apply H].
  unfold eval_map, mixed. destruct (d_ref_alone d && has_ref (fun k => mget k m)) eqn:Hr.
  { apply eval_obj_ref; auto. now rewrite <- Hra. }
  destruct HA as (A1 & A2 & A3 & A4 & A5 & A6).
  assert (X : forall k, In k ["patternProperties"; "propertyNames"; "contains"; "if"] ->
    when (d_extra d') (option_map (sub_of d' E) (mget k m)) = when (d_extra d) (option_map (sub_of d' E) (mget k m))).
  { intros k Hk. destruct A6 as [->|A6]; auto. rewrite (A6 k Hk). cbn. now rewrite !when_none. }
  assert (D : when (d_depend d') (option_map (sub_of d' E) (mget "dependentSchemas" m))
              = when (d_depend d) (option_map (sub_of d' E) (mget "dependentSchemas" m))).
  { destruct A3 as [->|A3]; auto. rewrite A3. cbn. now rewrite !when_none. }
  apply eval_obj_req; auto.
  - now rewrite <- Hra.
  - unfold chk_main. rewrite D, !X by in_names.
    rewrite (items_any d' d).
    2:{ destruct A1 as [->|[HP HI]]; auto. right. rewrite HP. split; auto.
        destruct (mget "items" m) as [[]|]; cbn; auto. }
    assert (HT : chk_type d' (mget "type" m) (mget "nullable" m) v = chk_type d (mget "type" m) (mget "nullable" m) v).
    { unfold chk_type. destruct A5 as [->|A5]; auto. rewrite A5.
      destruct (d_nullable d), (d_nullable d'); cbn [andb]; reflexivity. }
    assert (HC : chk_const d' (mget "const" m) v = chk_const d (mget "const" m) v).
    { unfold chk_const. destruct A4 as [->|A4]; auto. rewrite A4. auto. }
    now rewrite HT, HC.
  - intros k. unfold ev_main. now rewrite D, !X by in_names.
  - destruct A2 as [->|A2]; [apply den_eq_refl|]. rewrite A2. cbn. rewrite !when_none. constructor.
Qed.

(** ** Keeping conditions through the transforms *)
Definition stable (P : map_t -> Prop) : Prop :=
  forall t m, (forall y, is_schema y = true -> is_schema (t y) = true) -> P m -> P (tmap t m).

Lemma post_keeps here (P Q : map_t -> Prop) :
  (forall s, is_schema s = true -> is_schema (here s) = true) ->
  (forall s, is_obj s = false -> here s = s) -> stable P ->
  (forall m, P m -> (forall x, direct_sub m x -> everywhere Q x) -> everywhere Q (here (JObj m))) ->
  forall s, everywhere P s -> everywhere Q (post here s).
Proof.
  intros HS HL HP HH s Hs. induction Hs as [s Hs|m Hm _ IH].
  - rewrite post_leaf, HL by auto. now apply ew_leaf.
  - rewrite post_obj. apply HH; [apply HP; auto; now apply post_schema|]. intros x Hx.
    apply direct_tmap in Hx; [|now apply post_schema]. destruct Hx as (y & Hy & ->). auto.
Qed.

(** Conditions that depend only on some keywords, up to [sim]. *)
Definition sim (a b : option json) : Prop :=
  match a, b with
  | None, None => True
  | Some x, Some y =>
      (is_schema x = true /\ is_schema y = true) \/ x = y \/ (exists l l', x = JArr l /\ y = JArr l')
      \/ (exists p p', x = JObj p /\ y = JObj p')
  | _, _ => False
  end.
Lemma sim_refl a : sim a a.
Proof. destruct a; cbn; auto. Qed.
Lemma sim_tmap t m k : (forall y, is_schema y = true -> is_schema (t y) = true) ->
  sim (mget k m) (mget k (tmap t m)).
Proof.
  intros Ht. rewrite mget_tmap. destruct (mget k m) as [x|]; cbn; auto.
  destruct (shape_of k); cbn [sub_value_p]; unfold try_sub_p.
  - destruct (is_schema x) eqn:Hx; auto.
  - destruct x; eauto 8.
  - destruct x; cbn [is_schema]; eauto 8.
  - destruct x; eauto 8.
  - destruct x; auto.
Qed.

Definition items_ok (m : map_t) : Prop :=
  mget "prefixItems" m = None
  /\ match mget "items" m with Some (JArr _) => False | _ => True end.

Lemma ref_ok_eq m m' : mget "$ref" m' = mget "$ref" m -> sim (mget "allOf" m) (mget "allOf" m') ->
  ref_ok m -> ref_ok m'.
Proof.
  unfold ref_ok. intros -> H. destruct (mget "$ref" m) as [[]|]; auto.
  destruct (mget "allOf" m) as [x|], (mget "allOf" m') as [y|]; cbn in H; auto; try contradiction.
  destruct x; auto; try contradiction.
  destruct H as [[H _]|[<-|[(l1 & l2 & _ & ->)|(l1 & l2 & H & _)]]]; auto; discriminate.
Qed.
Lemma items_ok_eq m m' : sim (mget "prefixItems" m) (mget "prefixItems" m') ->
  sim (mget "items" m) (mget "items" m') -> items_ok m -> items_ok m'.
Proof.
  unfold items_ok. intros H1 H2 [P1 P2]. rewrite P1 in H1. split.
  - destruct (mget "prefixItems" m'); [contradiction|auto].
  - destruct (mget "items" m) as [x|], (mget "items" m') as [y|]; cbn in H2; auto; try contradiction.
    destruct H2 as [[_ H]|[<-|[(l1 & l2 & -> & _)|(l1 & l2 & _ & ->)]]]; auto; destruct y; auto; discriminate.
Qed.
Lemma prefix_ok_eq m m' : sim (mget "prefixItems" m) (mget "prefixItems" m') ->
  sim (mget "items" m) (mget "items" m') -> sim (mget "additionalItems" m) (mget "additionalItems" m') ->
  prefix_ok m -> prefix_ok m'.
Proof.
  unfold prefix_ok. intros H1 H2 H3 (P1 & P2 & P3). rewrite P3 in H3. repeat split.
  - destruct (mget "prefixItems" m) as [x|], (mget "prefixItems" m') as [y|]; cbn in H1; auto; try contradiction.
    destruct x; try contradiction.
    destruct H1 as [[H _]|[<-|[(l1 & l2 & _ & ->)|(l1 & l2 & H & _)]]]; auto; discriminate.
  - destruct (mget "items" m) as [x|], (mget "items" m') as [y|]; cbn in H2; auto; try contradiction.
    destruct H2 as [[_ H]|[<-|[(l1 & l2 & -> & _)|(l1 & l2 & _ & ->)]]]; auto; destruct y; auto; discriminate.
  - destruct (mget "additionalItems" m'); [contradiction|auto].
Qed.
Lemma no_hidden_eq m m' : mget "dependentSchemas" m' = mget "dependentSchemas" m ->
  mget "unevaluatedProperties" m' = mget "unevaluatedProperties" m -> no_hidden m -> no_hidden m'.
Proof. unfold no_hidden. intros -> ->. auto. Qed.
Lemma const_ok_eq m m' : mget "const" m' = mget "const" m -> mget "enum" m' = mget "enum" m ->
  const_ok m -> const_ok m'.
Proof. unfold const_ok. intros -> ->. auto. Qed.

Lemma stable_and P Q : stable P -> stable Q -> stable (fun m => P m /\ Q m).
Proof. intros H1 H2 t m Ht [HP HQ]. split; [now apply H1|now apply H2]. Qed.
Lemma stable_ref : stable ref_ok.
Proof. intros t m Ht. apply ref_ok_eq; [now apply tmap_other|now apply sim_tmap]. Qed.
Lemma stable_items : stable items_ok.
Proof. intros t m Ht. apply items_ok_eq; now apply sim_tmap. Qed.
Lemma stable_prefix : stable prefix_ok.
Proof. intros t m Ht. apply prefix_ok_eq; now apply sim_tmap. Qed.
Lemma stable_hidden : stable no_hidden.
Proof. intros t m Ht. apply no_hidden_eq; now apply tmap_other. Qed.
Lemma stable_const : stable const_ok.
Proof. intros t m Ht. apply const_ok_eq; now apply tmap_other. Qed.
Lemma stable_no_uneval : stable no_uneval.
Proof. intros t m Ht H. unfold no_uneval. now rewrite tmap_other. Qed.
Lemma stable_prefix_absent : stable no_prefix.
Proof. intros t m Ht H. unfold no_prefix in *. now rewrite mget_tmap, H. Qed.

(** *** ReplaceUnevaluatedProperties changes only properties and additionalProperties *)
Lemma uneval_here_lookups m : exists m', replace_uneval_here (JObj m) = JObj m'
  /\ forall k, ~ In k ["unevaluatedProperties"; "additionalProperties"; "properties"] -> mget k m' = mget k m.
Proof.
  cbn [replace_uneval_here]. destruct (mget "unevaluatedProperties" m) as [u|]; [|eauto].
  set (m1 := mset "additionalProperties" u (mdel "unevaluatedProperties" m)).
  assert (H1 : forall k, ~ In k ["unevaluatedProperties"; "additionalProperties"; "properties"] -> mget k m1 = mget k m).
  { intros k Hk. unfold m1. rewrite mget_mset, mget_mdel.
    destruct (String.eqb_spec k "additionalProperties"); [subst; cbn in Hk; tauto|].
    destruct (String.eqb_spec k "unevaluatedProperties"); [subst; cbn in Hk; tauto|]. auto. }
  assert (H2 : forall v k, ~ In k ["unevaluatedProperties"; "additionalProperties"; "properties"] ->
             mget k (mset "properties" v m1) = mget k m).
  { intros v k Hk. rewrite mget_mset. destruct (String.eqb_spec k "properties"); [subst; cbn in Hk; tauto|]. auto. }
  destruct (gather_names (JObj m1)); [eauto|]. destruct (mget "properties" m1) as [[]|]; eauto.
Qed.

Lemma uneval_keeps (P : map_t -> Prop) :
  stable P ->
  (forall m m', (forall k, ~ In k ["unevaluatedProperties"; "additionalProperties"; "properties"] -> mget k m' = mget k m)
     -> P m -> P m') ->
  forall s, everywhere (fun m => P m /\ flat_uneval m) s -> everywhere P (replace_uneval s).
Proof.
  intros HSt HP.
  assert (HSF : stable (fun m => P m /\ flat_uneval m)).
  { apply stable_and; auto. intros t m Ht H u. rewrite tmap_other by reflexivity. apply H. }
  apply (post_keeps replace_uneval_here _ _ here_schema_uneval); [now intros []|exact HSF|].
  intros m [Hm HF] H. destruct (uneval_here_lookups m) as (m' & Hh & HL).
  assert (HD : forall x, direct_sub m' x -> everywhere P x).
  { revert Hh. cbn [replace_uneval_here].
    destruct (mget "unevaluatedProperties" m) as [u|] eqn:HU; [|intros [= <-]; auto].
    specialize (HF u HU).
    set (m1 := mset "additionalProperties" u (mdel "unevaluatedProperties" m)).
    assert (H1 : forall x, direct_sub m1 x -> everywhere P x).
    { intros x Hx. apply direct_mset in Hx as [Hx|Hx].
      - apply H. eapply direct_mdel; eauto.
      - apply direct_one in Hx. change (In x (filter is_schema [u])) in Hx.
        destruct u; try contradiction; try discriminate HF. cbn in Hx. destruct Hx as [<-|[]].
        now apply ew_leaf. }
    assert (H2 : forall names p, (forall n x, In (n, x) p -> is_schema x = true -> everywhere P x) ->
      forall x, direct_sub (mset "properties" (JObj (or_insert_true names p)) m1) x -> everywhere P x).
    { intros names p Hp x Hx. apply direct_mset in Hx as [Hx|Hx]; auto. apply direct_one in Hx.
      change (In x (filter is_schema (map snd (or_insert_true names p)))) in Hx.
      apply filter_In in Hx as [Hx Hs]. apply in_map_iff in Hx as ([n y] & <- & Hin). cbn [snd] in *.
      apply or_insert_In in Hin as [Hin| ->]; [eauto|now apply ew_leaf]. }
    destruct (gather_names (JObj m1)) as [|n0 ns]; [intros [= <-]; auto|].
    destruct (mget "properties" m1) as [[| | | | |p]|] eqn:Hp; intros [= <-]; auto.
    - apply (H2 (n0 :: ns) p). intros n x Hin Hs. apply H1. eapply ds_map; [|apply mget_In; exact Hp|exact Hin|exact Hs]. in_names.
    - apply (H2 (n0 :: ns) []). intros n x []. }
  rewrite Hh. apply ew_obj; eauto.
Qed.

(** *** RemoveRefSiblings changes only $ref and allOf *)
Lemma ref_here_lookups m : exists m', remove_ref_siblings_here (JObj m) = JObj m'
  /\ (forall k, k <> "$ref" -> k <> "allOf" -> mget k m' = mget k m)
  /\ forall x, direct_sub m' x -> direct_sub m x \/ exists r, x = JObj [("$ref", r)].
Proof.
  cbn [remove_ref_siblings_here]. destruct (Nat.ltb 1 (List.length m)); [|eauto 6].
  destruct (mget "$ref" m) as [r|] eqn:Hr; [|eauto 6].
  assert (H1 : forall k, k <> "$ref" -> mget k (mdel "$ref" m) = mget k m).
  { intros k Hk. rewrite mget_mdel. now rewrite (proj2 (String.eqb_neq _ _) Hk). }
  assert (H2 : forall v k, k <> "$ref" -> k <> "allOf" -> mget k (mset "allOf" v (mdel "$ref" m)) = mget k m).
  { intros v k Hk Hk2. rewrite mget_mset. rewrite (proj2 (String.eqb_neq _ _) Hk2). auto. }
  destruct (mget "allOf" (mdel "$ref" m)) as [a|] eqn:Ha.
  - destruct a as [| | | |l|]; try (eexists; split; [reflexivity|]; split; [auto|intros x Hx; left; eapply direct_mdel; exact Hx]).
    eexists; split; [reflexivity|]. split; [auto|]. intros x Hx.
    apply direct_mset in Hx as [Hx|Hx]; [left; eapply direct_mdel; eauto|]. apply direct_one in Hx.
    change (In x (filter is_schema (l ++ [JObj [("$ref", r)]]))) in Hx.
    apply filter_In in Hx as [Hx Hs]. apply in_app_iff in Hx as [Hx|[Hx|[]]]; [|right; eauto].
    left. eapply direct_mdel. eapply (direct_In "allOf"); [apply mget_In; exact Ha|].
    change (In x (filter is_schema l)). now apply filter_In.
  - eexists; split; [reflexivity|]. split; [auto|]. intros x Hx.
    apply direct_mset in Hx as [Hx|Hx]; [left; eapply direct_mdel; eauto|]. apply direct_one in Hx.
    cbn in Hx. destruct Hx as [<-|[]]. right; eauto.
Qed.

Lemma ref_keeps (P : map_t -> Prop) : stable P ->
  (forall m m', (forall k, k <> "$ref" -> k <> "allOf" -> mget k m' = mget k m) -> P m -> P m') ->
  (forall r, P [("$ref", r)]) ->
  forall s, everywhere P s -> everywhere P (remove_ref_siblings s).
Proof.
  intros HSt HP HR. apply (post_keeps remove_ref_siblings_here _ _ here_schema_ref); [now intros []|exact HSt|].
  intros m Hm H. destruct (ref_here_lookups m) as (m' & -> & HL & HD). apply ew_obj; eauto.
  intros x Hx. apply HD in Hx as [Hx|(r & ->)]; auto. apply ew_obj; auto.
  intros x Hx. apply direct_one in Hx. destruct r; contradiction.
Qed.

(** *** The others *)
Lemma example_keeps (P : map_t -> Prop) : stable P ->
  (forall m m', (forall k, k <> "examples" -> k <> "example" -> mget k m' = mget k m) -> P m -> P m') ->
  forall s, everywhere P s -> everywhere P (set_single_example s).
Proof.
  intros HSt HP. apply (post_keeps set_single_example_here _ _ here_schema_example); [now intros []|exact HSt|].
  intros m Hm H. cbn [set_single_example_here].
  assert (H1 : forall k, k <> "examples" -> mget k (mdel "examples" m) = mget k m).
  { intros k Hk. rewrite mget_mdel. now rewrite (proj2 (String.eqb_neq _ _) Hk). }
  assert (H0 : everywhere P (JObj (mdel "examples" m))).
  { apply ew_obj; [eauto|]. intros x Hx. apply direct_mdel in Hx. auto. }
  destruct (mget "examples" m) as [[| | | |[|e l]|]|]; try exact H0.
  apply ew_obj.
  - apply (HP m); auto. intros k Hk Hk2. rewrite mget_mset, (proj2 (String.eqb_neq _ _) Hk2). auto.
  - intros x Hx. apply direct_mset_other in Hx; [|reflexivity]. apply direct_mdel in Hx. auto.
Qed.

Lemma const_keeps (P : map_t -> Prop) : stable P ->
  (forall m m', (forall k, k <> "const" -> k <> "enum" -> mget k m' = mget k m) -> P m -> P m') ->
  forall s, everywhere P s -> everywhere P (replace_const s).
Proof.
  intros HSt HP. apply (post_keeps replace_const_here _ _ here_schema_const); [now intros []|exact HSt|].
  intros m Hm H. cbn [replace_const_here]. destruct (mget "const" m) as [c|] eqn:Hc; [|now apply ew_obj].
  apply ew_obj.
  - apply (HP m); auto. intros k Hk Hk2.
    rewrite mget_mset, (proj2 (String.eqb_neq _ _) Hk2), mget_mdel, (proj2 (String.eqb_neq _ _) Hk). auto.
  - intros x Hx. apply direct_mset_other in Hx; [|reflexivity]. apply direct_mdel in Hx. auto.
Qed.

Lemma bool_keeps skip (P : map_t -> Prop) : stable P ->
  (forall m m', (forall k, k <> "additionalProperties" -> mget k m' = mget k m) -> P m -> P m') ->
  P [] -> P [("not", JObj [])] ->
  forall s, everywhere P s -> everywhere P (replace_bool skip s).
Proof.
  intros HSt HP HE HN s Hs. induction Hs as [s Hs|m Hm Hsub IH]; rewrite replace_bool_unfold.
  - destruct s as [|b| | | |]; try discriminate Hs; try now apply ew_leaf.
    cbn. destruct b; (apply ew_obj; [assumption|]); intros x Hx; apply direct_spec in Hx; cbn in Hx;
      [contradiction|]. destruct Hx as [<-|[]]. apply ew_obj; auto. intros x Hx. apply direct_spec in Hx. contradiction.
  - unfold replace_bool_body.
    assert (HT : everywhere P (JObj (tmap (replace_bool skip) m))).
    { apply ew_obj; [apply HSt; auto; intros; now apply replace_bool_schema|].
      intros x Hx. apply direct_tmap in Hx; [|intros; now apply replace_bool_schema].
      destruct Hx as (y & Hy & ->). auto. }
    destruct skip; [|exact HT]. destruct (mget "additionalProperties" m) as [ap|] eqn:Ha; [|exact HT].
    change (everywhere P (JObj (mset "additionalProperties" ap (tmap (replace_bool true) (mdel "additionalProperties" m))))).
    apply ew_obj.
    + apply (HP (tmap (replace_bool true) m)); [|apply HSt; auto; intros; now apply replace_bool_schema].
      intros k Hk. rewrite mget_mset, (proj2 (String.eqb_neq _ _) Hk), <- mdel_tmap, mget_mdel,
        (proj2 (String.eqb_neq _ _) Hk). reflexivity.
    + intros x Hx. apply direct_mset in Hx as [Hx|Hx].
      * apply direct_tmap in Hx; [|intros; now apply replace_bool_schema].
        destruct Hx as (y & Hy & ->). apply IH. eapply direct_mdel; eauto.
      * apply direct_one in Hx. apply Hsub. eapply (direct_In "additionalProperties"); [apply mget_In; exact Ha|exact Hx].
Qed.

Lemma nullable_keeps rm ac (P Q : map_t -> Prop) : stable Q ->
  (forall m mh, add_nullable_here rm ac (JObj m) = JObj mh -> P m -> Q mh) ->
  forall s, everywhere P s -> everywhere Q (add_nullable rm ac s).
Proof.
  intros HSt HP s Hs. induction Hs as [s Hs|m Hm Hsub IH]; rewrite add_nullable_unfold.
  - destruct s; try discriminate Hs; now apply ew_leaf.
  - destruct (add_nullable_here_obj rm ac m) as (mh & Hh & HD & _). rewrite Hh.
    change (everywhere Q (JObj (tmap (add_nullable rm ac) mh))). apply ew_obj.
    + apply HSt; [intros; now apply add_nullable_schema|eauto].
    + intros x Hx. apply direct_tmap in Hx; [|intros; now apply add_nullable_schema].
      destruct Hx as (y & Hy & ->). auto.
Qed.

(** ** draft-07 *)
(** generate.rs:74-90: the transforms of SchemaSettings::draft07, in order. *)
Definition draft07_transforms (s : json) : json :=
  replace_prefix_items (remove_ref_siblings (replace_uneval s)).
(** generate.rs:92-104 *)
Definition draft2019_transforms (s : json) : json := replace_prefix_items s.
(** generate.rs:119-141 *)
Definition openapi3_transforms (s : json) : json :=
  replace_prefix_items
    (replace_const
       (set_single_example
          (remove_ref_siblings (add_nullable true true (replace_bool true (replace_uneval s)))))).

(** The shape of the 2020-12 schemas for which the draft-07 settings are exact. *)
Definition shape07 (m : map_t) : Prop := ref_ok m /\ prefix_ok m /\ no_hidden m.

Definition shape07' (m : map_t) : Prop := ref_ok m /\ prefix_ok m /\ mget "dependentSchemas" m = None.
Lemma stable_no_dep : stable (fun m => mget "dependentSchemas" m = None).
Proof. intros t m Ht H. now rewrite tmap_other. Qed.
Lemma shape07_uneval s : everywhere shape07 s ->
  everywhere (fun m => (ref_ok m /\ prefix_ok m) /\ no_hidden m) (replace_uneval s).
Proof.
  intros H.
  assert (HF : everywhere flat_uneval s).
  { eapply everywhere_impl; [|exact H]. intros m (_ & _ & _ & Hu) u HU. now rewrite HU in Hu. }
  assert (HK : everywhere shape07' (replace_uneval s)).
  { apply uneval_keeps.
    - unfold shape07'. apply stable_and; [apply stable_ref|]. apply stable_and; [apply stable_prefix|apply stable_no_dep].
    - intros m m' HL (H1 & H2 & H3). repeat split.
      + eapply ref_ok_eq; [| |exact H1]; [apply HL; cbn; intuition discriminate|].
        rewrite (HL "allOf") by (cbn; intuition discriminate). apply sim_refl.
      + eapply prefix_ok_eq; [| | |exact H2];
          [rewrite (HL "prefixItems")|rewrite (HL "items")|rewrite (HL "additionalItems")];
          try apply sim_refl; cbn; intuition discriminate.
      + eapply prefix_ok_eq; [| | |exact H2];
          [rewrite (HL "prefixItems")|rewrite (HL "items")|rewrite (HL "additionalItems")];
          try apply sim_refl; cbn; intuition discriminate.
      + eapply prefix_ok_eq; [| | |exact H2];
          [rewrite (HL "prefixItems")|rewrite (HL "items")|rewrite (HL "additionalItems")];
          try apply sim_refl; cbn; intuition discriminate.
      + rewrite (HL "dependentSchemas") by (cbn; intuition discriminate). exact H3.
    - apply everywhere_and; auto. eapply everywhere_impl; [|exact H].
      intros m (H1 & H2 & H3 & _). repeat split; auto; apply H2. }
  pose proof (replace_uneval_post s HF) as HN.
  pose proof (everywhere_and _ _ _ HK HN) as HA. eapply everywhere_impl; [|exact HA].
  intros m ((H1 & H2 & H3) & H4). split; [split; auto|]. split; auto. now rewrite H4.
Qed.

Lemma ref_keeps07 s : everywhere (fun m => (ref_ok m /\ prefix_ok m) /\ no_hidden m) s ->
  everywhere (fun m => prefix_ok m /\ no_hidden m) (remove_ref_siblings s).
Proof.
  intros H. apply ref_keeps.
  - apply stable_and; [apply stable_prefix|apply stable_hidden].
  - intros m m' HL (H2 & H3). split.
    + eapply prefix_ok_eq; [| | |exact H2];
        [rewrite (HL "prefixItems")|rewrite (HL "items")|rewrite (HL "additionalItems")];
        try apply sim_refl; discriminate.
    + eapply no_hidden_eq; [| |exact H3]; apply HL; discriminate.
  - intros r. repeat split.
  - eapply everywhere_impl; [|exact H]. intros mm; cbv beta; tauto.
Qed.

Lemma draft07_tail d E s : d_ref_alone d = false -> d_items d = Prefix ->
  everywhere (fun m => (ref_ok m /\ prefix_ok m) /\ no_hidden m) s ->
  feq (eval (set_items ArrayItems (set_ref_alone d)) E (replace_prefix_items (remove_ref_siblings s))) (eval d E s).
Proof.
  intros H1 H2 H. eapply feq_trans.
  - apply replace_prefix_items_sem; [exact H2|]. now apply ref_keeps07.
  - apply remove_ref_siblings_sem; auto. eapply everywhere_impl; [|exact H]. intros mm; cbv beta; tauto.
Qed.

(** No unevaluatedProperties: exactly the same instances. *)
Lemma draft07_exact E s : everywhere (fun m => shape07 m /\ no_uneval m) s ->
  feq (eval D07 E (draft07_transforms s)) (eval D2020 E s).
Proof.
  intros H. unfold draft07_transforms. rewrite T_same by (eapply everywhere_impl; [|exact H]; intros mm; cbv beta; tauto).
  set (d0 := Dialect false Prefix false false true false true).
  eapply feq_trans; [apply (draft07_tail d0); try reflexivity|].
  - eapply everywhere_impl; [|exact H]. unfold shape07. tauto.
  - apply agree_sem; [reflexivity|]. eapply everywhere_impl; [|exact H].
    intros m ((H1 & H2 & H3) & H4). split; auto. unfold agree, d0, no_uneval in *; cbn. destruct H3. tauto.
Qed.

(** With unevaluatedProperties: nothing that was accepted is rejected. *)
Lemma draft07_accepts E s : positive s -> everywhere shape07 s ->
  fle (eval D2020 E s) (eval D07 E (draft07_transforms s)).
Proof.
  intros HP H v Hv.
  set (d0 := Dialect false Prefix true false true false true).
  assert (H0 : ok (eval d0 E s v) = true).
  { assert (HG : everywhere (fun m => agree D2020 d0 m /\ no_hidden m) s).
    { eapply everywhere_impl; [|exact H]. intros m (H1 & H2 & H3). split; [|exact H3].
      unfold agree, d0; cbn. destruct H3; tauto. }
    rewrite (proj1 (agree_sem D2020 d0 E s eq_refl HG v)). exact Hv. }
  assert (H1 : ok (eval (set_uneval false d0) E (replace_uneval s) v) = true).
  { apply replace_uneval_mono; auto. eapply everywhere_impl; [|exact H].
    intros m (_ & _ & HU). now apply no_hidden_ok. }
  unfold draft07_transforms. change D07 with (set_items ArrayItems (set_ref_alone (set_uneval false d0))).
  rewrite (proj1 (draft07_tail (set_uneval false d0) E _ eq_refl eq_refl (shape07_uneval s H) v)). exact H1.
Qed.

(** 2019-09 *)
Lemma draft2019_exact E s : everywhere (fun m => prefix_ok m /\ no_hidden m) s ->
  feq (eval D2019 E (draft2019_transforms s)) (eval D2020 E s).
Proof. intros H. apply (replace_prefix_items_sem D2020 E s eq_refl H). Qed.

(** ** OpenAPI 3.0 *)
(** The shape of the schemas for which the OpenAPI settings are exact: no tuples, no keywords
    unknown to OpenAPI 3.0 (except const, examples, booleans and "type": "null", which the
    transforms replace). *)
Definition shape_oas (m : map_t) : Prop :=
  ref_ok m /\ items_ok m /\ no_hidden m /\ nullable_ok true m /\ const_ok m
  /\ (only_null_type m -> mget "enum" m = None)
  /\ absent ["patternProperties"; "propertyNames"; "contains"; "if"] m.

Definition oas0 : dialect := Dialect false SingleItems true false true false false.

Definition oas1 (m : map_t) : Prop :=
  (ref_ok m /\ items_ok m) /\ no_hidden m /\ nullable_ok true m /\ const_ok m
  /\ (only_null_type m -> mget "enum" m = None).
Definition oas1' (m : map_t) : Prop :=
  (ref_ok m /\ items_ok m) /\ mget "dependentSchemas" m = None /\ nullable_ok true m /\ const_ok m
  /\ (only_null_type m -> mget "enum" m = None).

Lemma only_null_eq m m' : mget "type" m' = mget "type" m -> only_null_type m' <-> only_null_type m.
Proof. unfold only_null_type. intros ->. tauto. Qed.
Lemma nullable_ok_eq ac m m' : mget "type" m' = mget "type" m -> mget "nullable" m' = mget "nullable" m ->
  mget "const" m' = mget "const" m -> nullable_ok ac m -> nullable_ok ac m'.
Proof. intros H1 H2 H3. unfold nullable_ok. rewrite (only_null_eq m m' H1), H1, H2, H3. auto. Qed.
Lemma stable_nullable ac : stable (nullable_ok ac).
Proof. intros t m Ht. apply nullable_ok_eq; now apply tmap_other. Qed.
Lemma stable_null_enum : stable (fun m => only_null_type m -> mget "enum" m = None).
Proof.
  intros t m Ht H. rewrite (only_null_eq m) by now apply tmap_other. now rewrite tmap_other.
Qed.
Lemma stable_oas1 : stable oas1.
Proof.
  unfold oas1. apply stable_and; [apply stable_and; [apply stable_ref|apply stable_items]|].
  apply stable_and; [apply stable_hidden|]. apply stable_and; [apply stable_nullable|].
  apply stable_and; [apply stable_const|apply stable_null_enum].
Qed.
Lemma stable_oas1' : stable oas1'.
Proof.
  unfold oas1'. apply stable_and; [apply stable_and; [apply stable_ref|apply stable_items]|].
  apply stable_and; [apply stable_no_dep|]. apply stable_and; [apply stable_nullable|].
  apply stable_and; [apply stable_const|apply stable_null_enum].
Qed.

Lemma oas_uneval s : everywhere shape_oas s ->
  everywhere (fun m => oas1 m /\ no_uneval m) (replace_uneval s).
Proof.
  intros H.
  assert (HF : everywhere flat_uneval s).
  { eapply everywhere_impl; [|exact H]. intros m (_ & _ & [_ Hu] & _) u HU. now rewrite HU in Hu. }
  assert (HK : everywhere oas1' (replace_uneval s)).
  { apply uneval_keeps; [apply stable_oas1'| |].
    - intros m m' HL ((H1 & H2) & H3 & H4 & H5 & H6).
      assert (L : forall k, In k ["$ref"; "allOf"; "prefixItems"; "items"; "dependentSchemas"; "type";
        "nullable"; "const"; "enum"] -> mget k m' = mget k m).
      { intros k Hk. apply HL. intros Hk'. in_cases Hk; cbn in Hk'; intuition discriminate. }
      unfold oas1'. rewrite (only_null_eq m) by (apply L; in_names).
      rewrite (L "enum"), (L "dependentSchemas") by in_names. split; [split|split; [|split; [|split]]]; auto.
      + eapply ref_ok_eq; [| |exact H1]; [apply L; in_names|]. rewrite (L "allOf") by in_names. apply sim_refl.
      + eapply items_ok_eq; [| |exact H2]; [rewrite (L "prefixItems") by in_names|rewrite (L "items") by in_names]; apply sim_refl.
      + eapply nullable_ok_eq; [| | |exact H4]; apply L; in_names.
      + eapply const_ok_eq; [| |exact H5]; apply L; in_names.
    - apply everywhere_and; auto. eapply everywhere_impl; [|exact H].
      intros m (H1 & H2 & [H3 _] & H4 & H5 & H6 & _). unfold oas1'. tauto. }
  pose proof (replace_uneval_post s HF) as HN.
  pose proof (everywhere_and _ _ _ HK HN) as HA. eapply everywhere_impl; [|exact HA].
  intros m ((H1 & H2 & H3 & H4 & H5) & HU). split; auto. unfold oas1, no_hidden. rewrite HU. tauto.
Qed.

Lemma oas_bool s : everywhere oas1 s -> everywhere oas1 (replace_bool true s).
Proof.
  apply bool_keeps; [apply stable_oas1| | |].
  - intros m m' HL ((H1 & H2) & H3 & H4 & H5 & H6).
    unfold oas1. rewrite (only_null_eq m) by (apply HL; discriminate). rewrite (HL "enum") by discriminate.
    split; [split|split; [|split; [|split]]]; auto.
    + eapply ref_ok_eq; [| |exact H1]; [apply HL; discriminate|]. rewrite HL by discriminate. apply sim_refl.
    + eapply items_ok_eq; [| |exact H2]; rewrite HL by discriminate; apply sim_refl.
    + eapply no_hidden_eq; [| |exact H3]; apply HL; discriminate.
    + eapply nullable_ok_eq; [| | |exact H4]; apply HL; discriminate.
    + eapply const_ok_eq; [| |exact H5]; apply HL; discriminate.
  - repeat split; cbn; try tauto; intros; reflexivity.
  - repeat split; cbn; try tauto; intros; reflexivity.
Qed.

Definition oas2 (m : map_t) : Prop := (ref_ok m /\ no_hidden m) /\ items_ok m /\ const_ok m.
Lemma add_nullable_here_lookups rm ac m mh : add_nullable_here rm ac (JObj m) = JObj mh ->
  (forall k, k <> "type" -> k <> "nullable" -> k <> "const" -> mget k mh = mget k m)
  /\ (mget "const" mh = mget "const" m \/ only_null_type m).
Proof.
  unfold add_nullable_here. destruct (has_type "null" (JObj m)) eqn:Hn; [|intros [= <-]; auto].
  rewrite mget_mset. cbn [String.eqb Ascii.eqb Bool.eqb].
  assert (F : forall k, k <> "type" -> k <> "nullable" -> k <> "const" ->
    (forall (a : json) mm, mget k (mset "nullable" a mm) = mget k mm)
    /\ (forall (b : json) mm, mget k (mset "const" b mm) = mget k mm)
    /\ (forall (c : json) mm, mget k (mset "type" c mm) = mget k mm)
    /\ forall (mm : map_t), mget k (mdel "type" mm) = mget k mm).
  { intros k H1 H2 H3. repeat split; intros;
      rewrite ?mget_mset, ?mget_mdel, ?(proj2 (String.eqb_neq _ _) H1), ?(proj2 (String.eqb_neq _ _) H2),
      ?(proj2 (String.eqb_neq _ _) H3); auto. }
  destruct (mget "type" m) as [ty|] eqn:Hty.
  2:{ intros [= <-]. split; [|left; now rewrite mget_mset].
      intros k H1 H2 H3. destruct (F k H1 H2 H3) as (F1 & _). now rewrite F1. }
  assert (HO : match ty with JArr l => forallb is_null_name l | _ => true end = true -> only_null_type m).
  { intros Ho. unfold only_null_type. rewrite Hty. apply has_type_null in Hn as [Hn|(l & Hn & Hin)].
    - rewrite Hty in Hn. injection Hn as ->. reflexivity.
    - rewrite Hty in Hn. injection Hn as ->. rewrite forallb_forall in Ho. intros x Hx.
      apply is_null_name_eq. auto. }
  destruct (match ty with JArr l => forallb is_null_name l | _ => true end) eqn:Ho.
  - specialize (HO eq_refl). intros Hh. split; auto. intros k H1 H2 H3. destruct (F k H1 H2 H3) as (F1 & F2 & F3 & F4).
    destruct ac, rm; injection Hh as <-; now rewrite ?F4, ?F2, ?F3, ?F1.
  - intros Hh. split.
    + intros k H1 H2 H3. destruct (F k H1 H2 H3) as (F1 & F2 & F3 & F4).
      destruct rm; [|injection Hh as <-; now rewrite F1].
      destruct ty; try (injection Hh as <-; now rewrite F1).
      destruct (filter _ l) as [|t0 [|t1 l']]; injection Hh as <-; now rewrite F3, F1.
    + left. destruct rm; [|injection Hh as <-; now rewrite mget_mset].
      destruct ty; try (injection Hh as <-; now rewrite mget_mset).
      destruct (filter _ l) as [|t0 [|t1 l']]; injection Hh as <-; now rewrite !mget_mset.
Qed.

Lemma stable_oas2 : stable oas2.
Proof.
  unfold oas2. apply stable_and; [apply stable_and; [apply stable_ref|apply stable_hidden]|].
  apply stable_and; [apply stable_items|apply stable_const].
Qed.

Lemma oas_nullable s : everywhere oas1 s -> everywhere oas2 (add_nullable true true s).
Proof.
  apply nullable_keeps; [apply stable_oas2|].
  intros m mh Hh ((H1 & H2) & H3 & H4 & H5 & H6).
  destruct (add_nullable_here_lookups _ _ _ _ Hh) as [HL HC].
  split; [split|split].
  - eapply ref_ok_eq; [| |exact H1]; [apply HL; discriminate|]. rewrite HL by discriminate. apply sim_refl.
  - eapply no_hidden_eq; [| |exact H3]; apply HL; discriminate.
  - eapply items_ok_eq; [| |exact H2]; rewrite HL by discriminate; apply sim_refl.
  - unfold const_ok in *. rewrite (HL "enum") by discriminate. destruct HC as [->|HC]; auto.
Qed.

Definition oas3 (m : map_t) : Prop := (const_ok m /\ no_hidden m) /\ items_ok m.
Lemma stable_oas3 : stable oas3.
Proof. unfold oas3. apply stable_and; [apply stable_and; [apply stable_const|apply stable_hidden]|apply stable_items]. Qed.
Lemma oas_ref s : everywhere oas2 s -> everywhere oas3 (remove_ref_siblings s).
Proof.
  intros H. apply ref_keeps; [apply stable_oas3| | |].
  - intros m m' HL ((H1 & H2) & H3). split; [split|].
    + eapply const_ok_eq; [| |exact H1]; apply HL; discriminate.
    + eapply no_hidden_eq; [| |exact H2]; apply HL; discriminate.
    + eapply items_ok_eq; [| |exact H3]; rewrite HL by discriminate; apply sim_refl.
  - intros r. repeat split.
  - eapply everywhere_impl; [|exact H]. unfold oas2, oas3. tauto.
Qed.
Lemma oas_example s : everywhere oas3 s -> everywhere oas3 (set_single_example s).
Proof.
  apply example_keeps; [apply stable_oas3|].
  intros m m' HL ((H1 & H2) & H3). split; [split|].
  - eapply const_ok_eq; [| |exact H1]; apply HL; discriminate.
  - eapply no_hidden_eq; [| |exact H2]; apply HL; discriminate.
  - eapply items_ok_eq; [| |exact H3]; rewrite HL by discriminate; apply sim_refl.
Qed.
Lemma oas_const s : everywhere oas3 s -> everywhere no_prefix (replace_const s).
Proof.
  intros H. apply const_keeps; [apply stable_prefix_absent| |].
  - intros m m' HL Hm. unfold no_prefix. now rewrite HL.
  - eapply everywhere_impl; [|exact H]. intros m (_ & H1 & _). exact H1.
Qed.

Lemma oas_tail E s : everywhere oas1 s ->
  feq (eval OAS30 E
         (replace_prefix_items (replace_const (set_single_example
            (remove_ref_siblings (add_nullable true true (replace_bool true s)))))))
      (eval (Dialect false SingleItems false false true false false) E s).
Proof.
  intros H0. pose proof (oas_bool _ H0) as H1. pose proof (oas_nullable _ H1) as H2.
  pose proof (oas_ref _ H2) as H3. pose proof (oas_example _ H3) as H4. pose proof (oas_const _ H4) as H5.
  set (d0 := Dialect false SingleItems false false true false false).
  rewrite (replace_prefix_fix _ H5).
  eapply feq_trans.
  { apply (replace_const_sem (set_ref_alone (set_nullable true d0)) false E); [reflexivity|].
    eapply everywhere_impl; [|exact H4]. unfold oas3. tauto. }
  eapply feq_trans; [apply set_single_example_sem|].
  eapply feq_trans.
  { apply (remove_ref_siblings_sem (set_nullable true d0) E); [reflexivity|].
    eapply everywhere_impl; [|exact H2]. unfold oas2. tauto. }
  eapply feq_trans.
  { apply (add_nullable_sem d0 true true E); [reflexivity|reflexivity|].
    eapply everywhere_impl; [|exact H1]. unfold oas1. tauto. }
  apply replace_bool_sem.
Qed.

Lemma openapi3_exact E s : everywhere (fun m => shape_oas m /\ no_uneval m) s ->
  feq (eval OAS30 E (openapi3_transforms s)) (eval D2020 E s).
Proof.
  intros H. unfold openapi3_transforms. rewrite T_same by (eapply everywhere_impl; [|exact H]; intros mm; cbv beta; tauto).
  eapply feq_trans; [apply oas_tail|].
  - eapply everywhere_impl; [|exact H]. unfold shape_oas, oas1. tauto.
  - apply agree_sem; [reflexivity|]. eapply everywhere_impl; [|exact H].
    intros m ((H1 & [H2 H2'] & H3 & H4 & H5 & H6 & H7) & H8). split; auto. unfold agree, no_uneval in *; cbn. destruct H3. tauto.
Qed.

Lemma openapi3_accepts E s : positive s -> everywhere shape_oas s ->
  fle (eval D2020 E s) (eval OAS30 E (openapi3_transforms s)).
Proof.
  intros HP H v Hv.
  assert (H0 : ok (eval oas0 E s v) = true).
  { assert (HG : everywhere (fun m => agree D2020 oas0 m /\ no_hidden m) s).
    { eapply everywhere_impl; [|exact H]. intros m (H1 & [H2 H2'] & H3 & H4 & H5 & H6 & H7). split; [|exact H3].
      unfold agree, oas0; cbn. destruct H3; tauto. }
    rewrite (proj1 (agree_sem D2020 oas0 E s eq_refl HG v)). exact Hv. }
  assert (H1 : ok (eval (set_uneval false oas0) E (replace_uneval s) v) = true).
  { apply replace_uneval_mono; auto. eapply everywhere_impl; [|exact H].
    intros m (_ & _ & HU & _). now apply no_hidden_ok. }
  unfold openapi3_transforms.
  rewrite (proj1 (oas_tail E (replace_uneval s) (everywhere_impl _ _ _ (fun m Hm => proj1 Hm) (oas_uneval s H)) v)).
  exact H1.
Qed.
