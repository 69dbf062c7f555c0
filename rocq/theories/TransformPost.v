(** What the built-in transforms leave behind, and idempotence. *)
From Coq Require Import String Ascii List ZArith Bool Lia.
From Verif Require Import Json JsonFacts SchemaApi Validate ValidateFacts Transform TransformSpec
  TransformProofs TransformSem TransformNullable TransformUneval.
Import ListNotations.
Open Scope string_scope.

(** ** General facts *)
Lemma post_everywhere here (P Q : map_t -> Prop) :
  (forall s, is_schema s = true -> is_schema (here s) = true) ->
  (forall s, is_obj s = false -> here s = s) ->
  (forall m t, P m -> (forall x, direct_sub (tmap t m) x -> everywhere Q x) ->
     everywhere Q (here (JObj (tmap t m)))) ->
  forall s, everywhere P s -> everywhere Q (post here s).
Proof.
  intros HS HL HH s HP. induction HP as [s Hs|m HP _ IH].
  - rewrite post_leaf, HL by auto. now apply ew_leaf.
  - rewrite post_obj. apply HH; auto. intros x Hx.
    apply direct_tmap in Hx; [|now apply post_schema]. destruct Hx as (y & Hy & ->). auto.
Qed.

Lemma post_fix here s :
  (forall s, is_obj s = false -> here s = s) ->
  everywhere (fun m => here (JObj m) = JObj m) s -> post here s = s.
Proof.
  intros HL H. induction H as [s Hs|m Hm _ IH]; [rewrite post_leaf; auto|].
  now rewrite post_obj, (tmap_id _ _ IH), Hm.
Qed.

Lemma everywhere_True s : everywhere (fun _ => True) s.
Proof. revert s. refine (direct_ind _ _ _); [intros; now apply ew_leaf|intros; apply ew_obj; auto]. Qed.

Lemma mdel_absent {A} k (m : list (string * A)) : mget k m = None -> mdel k m = m.
Proof.
  induction m as [|[k' x] m IH]; cbn; auto. destruct (String.eqb_spec k k'); [discriminate|].
  intros H. now rewrite IH.
Qed.

Lemma direct_mset k v m x : direct_sub (mset k v m) x -> direct_sub m x \/ direct_sub [(k, v)] x.
Proof.
  rewrite <- !direct_spec. unfold direct. rewrite !in_flat_map.
  intros ([k' v'] & Hin & Hx). apply mset_In in Hin as [Heq|Hin]; [|left; now exists (k', v')].
  right. exists (k', v'). split; auto. left. symmetry. exact Heq.
Qed.
Lemma direct_one k v x : direct_sub [(k, v)] x <-> In x (direct_of (shape_of k) v).
Proof.
  rewrite <- direct_spec. unfold direct. cbn [flat_map fst snd]. rewrite app_nil_r. tauto.
Qed.
Lemma direct_In k v m x : In (k, v) m -> In x (direct_of (shape_of k) v) -> direct_sub m x.
Proof. intros H1 H2. rewrite <- direct_spec. unfold direct. apply in_flat_map. now exists (k, v). Qed.

(** ** ReplaceConstValue *)
Definition no_const (m : map_t) : Prop := mget "const" m = None.
Lemma replace_const_post s : everywhere no_const (replace_const s).
Proof.
  refine (post_everywhere replace_const_here (fun _ => True) _ here_schema_const _ _ s (everywhere_True s)).
  { now intros []. }
  intros m t _ H. cbn [replace_const_here]. destruct (mget "const" (tmap t m)) eqn:Hc.
  - apply ew_obj; [unfold no_const; now rewrite mget_mset, mget_mdel|].
    intros x Hx. apply direct_mset_other in Hx; [|reflexivity]. apply direct_mdel in Hx. auto.
  - apply ew_obj; auto.
Qed.
Lemma replace_const_fix s : everywhere no_const s -> replace_const s = s.
Proof.
  intros H. apply (post_fix replace_const_here); [now intros []|].
  eapply everywhere_impl; [|exact H]. intros m Hm. cbn. now rewrite Hm.
Qed.

(** ** RemoveRefSiblings *)
Definition ref_alone (m : map_t) : Prop := forall r, mget "$ref" m = Some r -> m = [("$ref", r)].
Lemma remove_ref_siblings_post s : everywhere ref_alone (remove_ref_siblings s).
Proof.
  refine (post_everywhere remove_ref_siblings_here (fun _ => True) _ here_schema_ref _ _ s (everywhere_True s)).
  { now intros []. }
  intros m t _. generalize (tmap t m). clear m t. intros m H. cbn [remove_ref_siblings_here].
  destruct (Nat.ltb 1 (List.length m)) eqn:HL.
  2:{ apply ew_obj; auto. intros r Hr. now apply short_map. }
  destruct (mget "$ref" m) as [r|] eqn:Hr.
  2:{ apply ew_obj; auto. intros r'. rewrite Hr. discriminate. }
  assert (HR : everywhere ref_alone (JObj [("$ref", r)])).
  { apply ew_obj.
    - intros r'. cbn. intros [= <-]. reflexivity.
    - intros x Hx. apply direct_one in Hx. destruct r; contradiction. }
  assert (HD : forall x, direct_sub (mdel "$ref" m) x -> everywhere ref_alone x).
  { intros x Hx. apply H. eapply direct_mdel; eauto. }
  assert (HN : mget "$ref" (mdel "$ref" m) = None) by now rewrite mget_mdel.
  destruct (mget "allOf" (mdel "$ref" m)) as [a|] eqn:Ha.
  - destruct a as [| | | |l|];
      try (apply ew_obj; [intros r'; rewrite HN; discriminate|exact HD]).
    apply ew_obj.
    + intros r'. rewrite mget_mset. cbn [String.eqb Ascii.eqb Bool.eqb]. rewrite HN. discriminate.
    + intros x Hx. apply direct_mset in Hx as [Hx|Hx]; auto. apply direct_one in Hx.
      change (direct_of (shape_of "allOf") (JArr (l ++ [JObj [("$ref", r)]])))
        with (filter is_schema (l ++ [JObj [("$ref", r)]])) in Hx.
      apply filter_In in Hx as [Hx Hs]. apply in_app_iff in Hx as [Hx|[Hx|[]]]; [|now subst].
      apply HD. eapply (direct_In "allOf"); [apply mget_In; exact Ha|].
      change (In x (filter is_schema l)). now apply filter_In.
  - apply ew_obj.
    + intros r'. rewrite mget_mset. cbn [String.eqb Ascii.eqb Bool.eqb]. rewrite HN. discriminate.
    + intros x Hx. apply direct_mset in Hx as [Hx|Hx]; auto. apply direct_one in Hx.
      cbn in Hx. destruct Hx as [<-|[]]. exact HR.
Qed.
Lemma remove_ref_siblings_fix s : everywhere ref_alone s -> remove_ref_siblings s = s.
Proof.
  intros H. apply (post_fix remove_ref_siblings_here); [now intros []|].
  eapply everywhere_impl; [|exact H]. intros m Hm. cbn [remove_ref_siblings_here].
  destruct (mget "$ref" m) as [r|] eqn:Hr; [|now destruct (Nat.ltb _ _)].
  rewrite (Hm r Hr). reflexivity.
Qed.

(** ** SetSingleExample *)
Definition no_examples (m : map_t) : Prop := mget "examples" m = None.
Lemma set_single_example_post s : everywhere no_examples (set_single_example s).
Proof.
  refine (post_everywhere set_single_example_here (fun _ => True) _ here_schema_example _ _ s (everywhere_True s)).
  { now intros []. }
  intros m t _. generalize (tmap t m). clear m t. intros m H. cbn [set_single_example_here].
  assert (H0 : everywhere no_examples (JObj (mdel "examples" m))).
  { apply ew_obj; [unfold no_examples; now rewrite mget_mdel|].
    intros x Hx. apply direct_mdel in Hx. auto. }
  destruct (mget "examples" m) as [[| | | |[|e l]|]|]; try exact H0.
  apply ew_obj; [unfold no_examples; now rewrite mget_mset, mget_mdel|].
  intros x Hx. apply direct_mset_other in Hx; [|reflexivity]. apply direct_mdel in Hx. auto.
Qed.
Lemma set_single_example_fix s : everywhere no_examples s -> set_single_example s = s.
Proof.
  intros H. apply (post_fix set_single_example_here); [now intros []|].
  eapply everywhere_impl; [|exact H]. intros m Hm. cbn [set_single_example_here].
  rewrite Hm. now rewrite mdel_absent.
Qed.

(** ** ReplacePrefixItems *)
Definition no_prefix (m : map_t) : Prop := mget "prefixItems" m = None.
(** "prefixItems" is not an object (JSON Schema requires an array). *)
Definition prefix_not_obj (m : map_t) : Prop := forall p, mget "prefixItems" m = Some p -> is_obj p = false.
Lemma replace_prefix_post s : everywhere prefix_not_obj s -> everywhere no_prefix (replace_prefix_items s).
Proof.
  apply (post_everywhere replace_prefix_here prefix_not_obj no_prefix here_schema_prefix).
  { now intros []. }
  intros m0 t HP H. cbn [replace_prefix_here].
  assert (HP' : forall p, mget "prefixItems" (tmap t m0) = Some p -> is_obj p = false).
  { intros p. rewrite mget_tmap. change (shape_of "prefixItems") with Many.
    destruct (mget "prefixItems" m0) as [q|] eqn:Hq; [|discriminate]. specialize (HP q Hq).
    cbn [option_map]. destruct q; try discriminate; intros [= <-]; reflexivity. }
  revert H HP'. generalize (tmap t m0). clear m0 t HP. intros m H HP.
  destruct (mget "prefixItems" m) as [p|] eqn:Hp; [|now apply ew_obj].
  specialize (HP p eq_refl).
  assert (HI : forall x, direct_sub [("items", p)] x -> everywhere no_prefix x).
  { intros x Hx. apply direct_one in Hx. destruct p; try contradiction; try discriminate HP.
    - cbn in Hx. destruct Hx as [<-|[]]. now apply ew_leaf.
    - apply H. eapply (direct_In "prefixItems"); [apply mget_In; exact Hp|]. exact Hx. }
  set (m1 := mdel "prefixItems" m).
  assert (H1 : forall x, direct_sub (mset "items" p m1) x -> everywhere no_prefix x).
  { intros x Hx. apply direct_mset in Hx as [Hx|Hx]; auto. apply H. eapply direct_mdel; eauto. }
  destruct (mget "items" m1) as [prev|] eqn:Hprev.
  - apply ew_obj; [unfold no_prefix, m1; now rewrite !mget_mset, mget_mdel|].
    intros x Hx. apply direct_mset in Hx as [Hx|Hx]; auto. apply direct_one in Hx.
    apply H. apply mget_In in Hprev. unfold m1 in Hprev. apply mdel_In in Hprev.
    eapply (direct_In "items"); [exact Hprev|].
    change (In x (filter is_schema [prev])) in Hx. destruct prev; try contradiction; exact Hx.
  - apply ew_obj; [unfold no_prefix, m1; now rewrite !mget_mset, mget_mdel|]. exact H1.
Qed.
Lemma replace_prefix_fix s : everywhere no_prefix s -> replace_prefix_items s = s.
Proof.
  intros H. apply (post_fix replace_prefix_here); [now intros []|].
  eapply everywhere_impl; [|exact H]. intros m Hm. cbn. now rewrite Hm.
Qed.

(** ** ReplaceUnevaluatedProperties *)
Definition flat_uneval (m : map_t) : Prop := forall u, mget "unevaluatedProperties" m = Some u -> is_obj u = false.

Lemma or_insert_In names p n x : In (n, x) (or_insert_true names p) -> In (n, x) p \/ x = JBool true.
Proof.
  unfold or_insert_true. revert p. induction names as [|a names IH]; intros p; cbn [fold_left]; auto.
  intros H. apply IH in H as [H|H]; auto. destruct (mhas a p); auto.
  apply mset_In in H as [H|H]; auto. injection H as _ ->. auto.
Qed.

Lemma replace_uneval_post s : everywhere flat_uneval s -> everywhere no_uneval (replace_uneval s).
Proof.
  apply (post_everywhere replace_uneval_here flat_uneval no_uneval here_schema_uneval).
  { now intros []. }
  intros m0 t HP H.
  assert (HP' : flat_uneval (tmap t m0)).
  { intros u. rewrite tmap_other by reflexivity. apply HP. }
  revert H HP'. generalize (tmap t m0). clear m0 t HP. intros m H HP.
  pose proof (here_no_uneval m) as HN. revert HN. cbn [replace_uneval_here].
  destruct (mget "unevaluatedProperties" m) as [u|] eqn:HU; [|intros; now apply ew_obj].
  specialize (HP u HU).
  set (m1 := mset "additionalProperties" u (mdel "unevaluatedProperties" m)).
  assert (H1 : forall x, direct_sub m1 x -> everywhere no_uneval x).
  { intros x Hx. apply direct_mset in Hx as [Hx|Hx].
    - apply H. eapply direct_mdel; eauto.
    - apply direct_one in Hx. change (In x (filter is_schema [u])) in Hx.
      destruct u; try contradiction; try discriminate HP. cbn in Hx. destruct Hx as [<-|[]].
      now apply ew_leaf. }
  assert (H2 : forall names p, (forall n x, In (n, x) p -> is_schema x = true -> everywhere no_uneval x) ->
    forall x, direct_sub (mset "properties" (JObj (or_insert_true names p)) m1) x -> everywhere no_uneval x).
  { intros names p Hp x Hx. apply direct_mset in Hx as [Hx|Hx]; auto. apply direct_one in Hx.
    change (In x (filter is_schema (map snd (or_insert_true names p)))) in Hx.
    apply filter_In in Hx as [Hx Hs]. apply in_map_iff in Hx as ([n y] & <- & Hin). cbn [snd] in *.
    apply or_insert_In in Hin as [Hin| ->]; [eauto|now apply ew_leaf]. }
  destruct (gather_names (JObj m1)); [intros; now apply ew_obj|].
  destruct (mget "properties" m1) as [[| | | | |p]|] eqn:Hp; intros HN;
    try (apply ew_obj; [exact HN|first [exact H1|apply H2]]).
  - intros n x Hin Hs. apply H1. eapply ds_map; [|apply mget_In; exact Hp|exact Hin|exact Hs]. in_names.
  - intros n x [].
Qed.

(** ** AddNullable *)
(** "null" is not among the types that "type" lists. *)
Definition no_null_type (m : map_t) : Prop :=
  mget "type" m <> Some (JStr "null")
  /\ forall l, mget "type" m = Some (JArr l) -> ~ In (JStr "null") l.
(** "type" lists only names. *)
Definition type_names (m : map_t) : Prop :=
  forall l x, mget "type" m = Some (JArr l) -> In x l -> is_str x = true.

Lemma has_type_null m : has_type "null" (JObj m) = true <->
  mget "type" m = Some (JStr "null") \/ exists l, mget "type" m = Some (JArr l) /\ In (JStr "null") l.
Proof.
  unfold has_type. cbn [s_get]. destruct (mget "type" m) as [[| | |t|l|]|];
    try (split; [discriminate|intros [?|(? & ? & ?)]; discriminate]).
  - rewrite String.eqb_eq. split; [left; congruence|]. intros [[= ->]|(? & ? & ?)]; congruence.
  - rewrite has_null_exists, existsb_exists. split.
    + intros (x & Hx & Hn). apply is_null_name_eq in Hn. subst. right. eauto.
    + intros [?|(l' & [= <-] & Hin)]; [discriminate|]. exists (JStr "null"). split; auto.
Qed.

Lemma add_nullable_here_obj rm ac m : exists mh, add_nullable_here rm ac (JObj m) = JObj mh
  /\ (forall x, direct_sub mh x -> direct_sub m x)
  /\ (rm = true -> type_names m -> no_null_type mh).
Proof.
  destruct (add_nullable_keeps rm ac (JObj m)) as [_ HK]. destruct (HK m eq_refl) as (mh & Hh & HD).
  exists mh. split; auto. split; auto. intros -> HT.
  assert (HF : has_type "null" (JObj mh) = false -> no_null_type mh).
  { intros Hf. split.
    - intros Ht. assert (X : has_type "null" (JObj mh) = true) by (apply has_type_null; auto). congruence.
    - intros l Hl Hin. assert (X : has_type "null" (JObj mh) = true) by (apply has_type_null; eauto). congruence. }
  unfold add_nullable_here in Hh. destruct (has_type "null" (JObj m)) eqn:Hn.
  2:{ injection Hh as <-. auto. }
  rewrite mget_mset in Hh. cbn [String.eqb Ascii.eqb Bool.eqb] in Hh.
  destruct (mget "type" m) as [ty|] eqn:Hty.
  2:{ apply has_type_null in Hn as [Hn|(l & Hn & _)]; congruence. }
  unfold no_null_type.
  assert (Hcase : (if match ty with JArr l => forallb is_null_name l | _ => true end then true else false) = true
     \/ exists l, ty = JArr l /\ forallb is_null_name l = false).
  { destruct ty; auto. destruct (forallb is_null_name l) eqn:Hf; eauto. }
  destruct Hcase as [Hc|(l & -> & Hc)].
  - destruct (match ty with JArr l => forallb is_null_name l | _ => true end); [|discriminate].
    destruct ac.
    + injection Hh as <-. rewrite mget_mdel. cbn. split; discriminate.
    + injection Hh as <-. rewrite mget_mset. cbn. split; [discriminate|]. intros l [= <-] [].
  - rewrite Hc in Hh.
    assert (HIn : ~ In (JStr "null") (filter (fun t => negb (is_null_name t)) l)).
    { rewrite filter_In. cbn. now intros [_ ?]. }
    assert (HSub : forall x, In x (filter (fun t => negb (is_null_name t)) l) -> is_str x = true).
    { intros x Hx. apply filter_In in Hx as [Hx _]. eapply HT; eauto. }
    destruct (filter (fun t => negb (is_null_name t)) l) as [|t0 [|t1 l']].
    + injection Hh as <-. rewrite mget_mset. cbn. split; [discriminate|]. intros l0 [= <-] [].
    + injection Hh as <-. rewrite mget_mset. cbn [String.eqb Ascii.eqb Bool.eqb]. split.
      * intros [= ->]. apply HIn. now left.
      * intros l0 [= ->]. specialize (HSub _ (or_introl eq_refl)). discriminate.
    + injection Hh as <-. rewrite mget_mset. cbn [String.eqb Ascii.eqb Bool.eqb]. split; [discriminate|].
      intros l0 [= <-]. exact HIn.
Qed.

Lemma add_nullable_post ac s : everywhere type_names s -> everywhere no_null_type (add_nullable true ac s).
Proof.
  revert s. refine (direct_ind _ _ _).
  - intros s Hs _. rewrite add_nullable_unfold.
    destruct s; try discriminate Hs; now apply ew_leaf.
  - intros m IH HP. apply everywhere_inv in HP as [HP HP'].
    rewrite add_nullable_unfold. destruct (add_nullable_here_obj true ac m) as (mh & -> & HD & HQ).
    specialize (HQ eq_refl HP). change (everywhere no_null_type (JObj (tmap (add_nullable true ac) mh))).
    apply ew_obj.
    + unfold no_null_type. rewrite tmap_other by reflexivity. exact HQ.
    + intros x Hx. apply direct_tmap in Hx; [|intros; now apply add_nullable_schema].
      destruct Hx as (y & Hy & ->). auto.
Qed.

Lemma no_null_has m : no_null_type m -> has_type "null" (JObj m) = false.
Proof.
  intros [H1 H2]. destruct (has_type "null" (JObj m)) eqn:Hn; auto.
  apply has_type_null in Hn as [Hn|(l & Hl & Hin)]; [contradiction|]. now apply H2 in Hl.
Qed.
Lemma add_nullable_fix rm ac s : everywhere no_null_type s -> add_nullable rm ac s = s.
Proof.
  induction 1 as [s Hs|m Hm _ IH]; rewrite add_nullable_unfold.
  - now destruct s.
  - unfold add_nullable_here. rewrite (no_null_has m Hm).
    change (JObj (tmap (add_nullable rm ac) m) = JObj m). now rewrite (tmap_id _ _ IH).
Qed.

(** ** ReplaceBoolSchemas *)
(** Schemas nested in [s] otherwise than through "additionalProperties". *)
Inductive nested_no_ap (s : json) : json -> Prop :=
| nn_self : nested_no_ap s s
| nn_step m x : nested_no_ap s (JObj m) -> direct_sub (mdel "additionalProperties" m) x -> nested_no_ap s x.

Lemma replace_bool_is_obj skip s : is_schema s = true -> is_obj (replace_bool skip s) = true.
Proof.
  intros Hs. rewrite replace_bool_unfold. unfold replace_bool_body.
  destruct s; try discriminate; auto. destruct (if skip then _ else _); auto.
Qed.

Lemma replace_bool_fuel_nested s x : is_schema s = true ->
  nested (replace_bool false s) x -> exists y, x = replace_bool false y /\ is_schema y = true.
Proof.
  intros Hs Hx. induction Hx as [|m x Hn IH Hd]; [eauto|].
  destruct IH as (y & Hy & Hsy). rewrite replace_bool_unfold in Hy.
  destruct y as [|b| | | |my]; try discriminate Hsy.
  - cbn in Hy. destruct b; injection Hy as ->; apply direct_spec in Hd; cbn in Hd; [contradiction|].
    destruct Hd as [<-|[]]. exists (JObj []). split; reflexivity.
  - cbn in Hy. injection Hy as ->. change (direct_sub (tmap (replace_bool false) my) x) in Hd.
    apply direct_tmap in Hd; [|intros; now apply replace_bool_schema].
    destruct Hd as (z & Hz & ->). exists z. split; auto. eapply direct_sub_schema; eauto.
Qed.
Lemma replace_bool_post s x : is_schema s = true -> nested (replace_bool false s) x -> is_obj x = true.
Proof.
  intros Hs Hx. destruct (replace_bool_fuel_nested s x Hs Hx) as (y & -> & Hy). now apply replace_bool_is_obj.
Qed.

Lemma mdel_mset_same {A} k (v : A) m : mdel k (mset k v m) = mdel k m.
Proof.
  induction m as [|[k' x] m IH]; cbn.
  - now rewrite String.eqb_refl.
  - destruct (String.compare k k') eqn:Hc; cbn.
    + apply scmp_eq in Hc. subst. now rewrite String.eqb_refl.
    + now rewrite String.eqb_refl.
    + destruct (String.eqb k k'); now rewrite IH.
Qed.
Lemma mdel_mdel {A} k (m : list (string * A)) : mdel k (mdel k m) = mdel k m.
Proof.
  induction m as [|[k' x] m IH]; cbn; auto. destruct (String.eqb k k') eqn:He; auto.
  cbn. now rewrite He, IH.
Qed.
Lemma mdel_tmap k t m : mdel k (tmap t m) = tmap t (mdel k m).
Proof.
  unfold tmap. induction m as [|[k' x] m IH]; cbn; auto. destruct (String.eqb k k'); auto.
  cbn. now rewrite IH.
Qed.

Lemma replace_bool_nested_ap s x : is_schema s = true ->
  nested_no_ap (replace_bool true s) x -> exists y, x = replace_bool true y /\ is_schema y = true.
Proof.
  intros Hs Hx. induction Hx as [|m x Hn IH Hd]; [eauto|].
  destruct IH as (y & Hy & Hsy). rewrite replace_bool_unfold in Hy.
  destruct y as [|b| | | |my]; try discriminate Hsy.
  - cbn in Hy. destruct b; injection Hy as ->; apply direct_spec in Hd; cbn in Hd; [contradiction|].
    destruct Hd as [<-|[]]. exists (JObj []). split; reflexivity.
  - assert (HD : direct_sub (tmap (replace_bool true) (mdel "additionalProperties" my)) x).
    { unfold replace_bool_body in Hy.
      destruct (mget "additionalProperties" my) eqn:Ha; injection Hy as ->.
      - change (direct_sub (mdel "additionalProperties" (mset "additionalProperties" j
                  (tmap (replace_bool true) (mdel "additionalProperties" my)))) x) in Hd.
        rewrite mdel_mset_same, mdel_tmap, mdel_mdel in Hd. exact Hd.
      - change (direct_sub (mdel "additionalProperties" (tmap (replace_bool true) my)) x) in Hd.
        now rewrite mdel_tmap in Hd. }
    apply direct_tmap in HD; [|intros; now apply replace_bool_schema].
    destruct HD as (z & Hz & ->). exists z. split; auto. eapply direct_sub_schema; eauto.
Qed.
Lemma replace_bool_skip_post s x : is_schema s = true ->
  nested_no_ap (replace_bool true s) x -> is_obj x = true.
Proof.
  intros Hs Hx. destruct (replace_bool_nested_ap s x Hs Hx) as (y & -> & Hy). now apply replace_bool_is_obj.
Qed.

(** skip_additional_properties: the value of "additionalProperties" is unchanged. *)
Lemma replace_bool_skip_keeps m : exists m', replace_bool true (JObj m) = JObj m'
  /\ mget "additionalProperties" m' = mget "additionalProperties" m.
Proof.
  rewrite replace_bool_unfold. unfold replace_bool_body.
  destruct (mget "additionalProperties" m) eqn:Ha; eexists; (split; [reflexivity|]).
  - now rewrite mget_mset_eq.
  - change (mget "additionalProperties" (tmap (replace_bool true) m) = None). now rewrite mget_tmap, Ha.
Qed.

Lemma mset_same_sorted {A} k (v : A) m : sorted_keys (map fst m) = true -> mget k m = Some v ->
  mset k v (mdel k m) = m.
Proof.
  induction m as [|[k' x] m IH]; cbn [map fst mget mdel]; [discriminate|]. intros Hs.
  apply sorted_keys_cons in Hs as [Hs1 Hs2]. unfold klt in Hs1.
  destruct (String.eqb_spec k k').
  - intros [= ->]. subst k'.
    assert (Hnot : ~ In k (map fst m)).
    { intros Hin. rewrite Forall_forall in Hs1. specialize (Hs1 _ Hin). rewrite scmp_refl in Hs1. discriminate. }
    rewrite mdel_absent by now apply mget_None. destruct m as [|[k2 y] m]; [reflexivity|]. cbn.
    rewrite Forall_forall in Hs1. rewrite (Hs1 k2); [reflexivity|now left].
  - intros Hg. cbn [mset]. destruct (String.compare k k') eqn:Hc.
    + apply scmp_eq in Hc. contradiction.
    + rewrite Forall_forall in Hs1. apply mget_In in Hg.
      assert (Hin : In k (map fst m)) by (apply in_map_iff; now exists (k, v)).
      specialize (Hs1 k Hin). rewrite scmp_sym, Hs1 in Hc. discriminate.
    + rewrite IH; auto.
Qed.

Definition sorted_map (m : map_t) : Prop := sorted_keys (map fst m) = true.

(** Objects at every position that is converted: nothing left to do. *)
Inductive bool_free (skip : bool) : json -> Prop :=
| bf_nonschema s : is_schema s = false -> bool_free skip s
| bf_obj m : sorted_map m ->
    (forall x, direct_sub (if skip then mdel "additionalProperties" m else m) x -> bool_free skip x) ->
    bool_free skip (JObj m).
Lemma replace_bool_fix skip s : bool_free skip s -> replace_bool skip s = s.
Proof.
  induction 1 as [s Hs|m Hm _ IH]; rewrite replace_bool_unfold.
  - destruct s; try discriminate; reflexivity.
  - unfold replace_bool_body. destruct skip.
    + destruct (mget "additionalProperties" m) as [ap|] eqn:Ha.
      * change (JObj (mset "additionalProperties" ap (tmap (replace_bool true) (mdel "additionalProperties" m))) = JObj m).
        rewrite (tmap_id _ _ IH). now rewrite mset_same_sorted.
      * change (JObj (tmap (replace_bool true) m) = JObj m).
        rewrite mdel_absent in IH by exact Ha. now rewrite (tmap_id _ _ IH).
    + change (JObj (tmap (replace_bool false) m) = JObj m). now rewrite (tmap_id _ _ IH).
Qed.
Lemma sorted_tmap t m : sorted_map m -> sorted_map (tmap t m).
Proof. unfold sorted_map. now rewrite keys_tmap. Qed.
Lemma replace_bool_free skip s : everywhere sorted_map s -> bool_free skip (replace_bool skip s).
Proof.
  revert s. refine (direct_ind _ _ _).
  - intros s Hs _. rewrite replace_bool_unfold. destruct s as [|b| | | |]; try discriminate Hs;
      try (apply bf_nonschema; reflexivity). cbn. destruct b; (apply bf_obj; [reflexivity|]).
    + intros x Hx. apply direct_spec in Hx. destruct skip; contradiction.
    + intros x Hx. assert (Hx' : direct_sub [("not", JObj [])] x) by (destruct skip; exact Hx).
      apply direct_one in Hx'. cbn in Hx'. destruct Hx' as [<-|[]]. apply bf_obj; [reflexivity|].
      intros x Hx'. apply direct_spec in Hx'. destruct skip; contradiction.
  - intros m IH HP. apply everywhere_inv in HP as [HP HP']. rewrite replace_bool_unfold.
    unfold replace_bool_body.
    assert (HD : forall m' x, (forall y, direct_sub m' y -> direct_sub m y) ->
      direct_sub (tmap (replace_bool skip) m') x -> bool_free skip x).
    { intros m' x Hm Hx. apply direct_tmap in Hx; [|intros; now apply replace_bool_schema].
      destruct Hx as (y & Hy & ->). auto. }
    destruct skip.
    + destruct (mget "additionalProperties" m) as [ap|] eqn:Ha.
      * change (bool_free true (JObj (mset "additionalProperties" ap (tmap (replace_bool true) (mdel "additionalProperties" m))))).
        apply bf_obj; [apply sorted_mset, sorted_tmap, sorted_mdel; exact HP|].
        intros x. rewrite mdel_mset_same, mdel_tmap, mdel_mdel. apply HD. intros y. apply direct_mdel.
      * change (bool_free true (JObj (tmap (replace_bool true) m))).
        apply bf_obj; [now apply sorted_tmap|]. intros x. rewrite mdel_tmap. apply HD. intros y. apply direct_mdel.
    + change (bool_free false (JObj (tmap (replace_bool false) m))).
      apply bf_obj; [now apply sorted_tmap|]. intros x. apply HD. auto.
Qed.

(** Well formed values are sorted at every schema. *)
Lemma wf_sorted s : wf s = true -> everywhere sorted_map s.
Proof.
  revert s. refine (direct_ind _ _ _); [intros; now apply ew_leaf|]. intros m IH Hw.
  apply ew_obj; [now apply wf_obj in Hw|]. intros x Hx. apply IH; auto.
  apply wf_obj in Hw as [_ Hw]. rewrite Forall_forall in Hw.
  destruct Hx as [k x Hk Hin Hs|k l x Hk Hin Hl Hs|k p n x Hk Hin Hp Hs].
  - apply (Hw (k, x) Hin).
  - specialize (Hw _ Hin). cbn [snd] in Hw. apply wf_arr in Hw. rewrite Forall_forall in Hw. auto.
  - specialize (Hw _ Hin). cbn [snd] in Hw. apply wf_obj in Hw as [_ Hw]. rewrite Forall_forall in Hw.
    apply (Hw (n, x) Hp).
Qed.

(** ** Idempotence *)
Lemma replace_const_idem s : replace_const (replace_const s) = replace_const s.
Proof. apply replace_const_fix, replace_const_post. Qed.
Lemma remove_ref_siblings_idem s : remove_ref_siblings (remove_ref_siblings s) = remove_ref_siblings s.
Proof. apply remove_ref_siblings_fix, remove_ref_siblings_post. Qed.
Lemma set_single_example_idem s : set_single_example (set_single_example s) = set_single_example s.
Proof. apply set_single_example_fix, set_single_example_post. Qed.
Lemma replace_prefix_idem s : everywhere prefix_not_obj s ->
  replace_prefix_items (replace_prefix_items s) = replace_prefix_items s.
Proof. intros H. now apply replace_prefix_fix, replace_prefix_post. Qed.
Lemma replace_uneval_idem s : everywhere flat_uneval s ->
  replace_uneval (replace_uneval s) = replace_uneval s.
Proof. intros H. now apply T_same, replace_uneval_post. Qed.
Lemma add_nullable_idem ac s : everywhere type_names s ->
  add_nullable true ac (add_nullable true ac s) = add_nullable true ac s.
Proof. intros H. now apply add_nullable_fix, add_nullable_post. Qed.
Lemma replace_bool_idem skip s : wf s = true -> replace_bool skip (replace_bool skip s) = replace_bool skip s.
Proof. intros H. apply replace_bool_fix, replace_bool_free. now apply wf_sorted. Qed.
