(** Properties C08-C17 and C19-C21: the schema generator.

    [run info n p g] is user code [p] working with generator [g]; [info] gives the JsonSchema
    implementations, as programs over the generator. The trace [g_log] records the references
    handed out by [subschema_for] ([EvRef]), the implementations entered and left ([EvRun],
    [EvRet]) and the definitions completed ([EvDef]); the generator never reads it. *)
From Coq Require Import String Ascii List ZArith Bool Lia Relations.
From Verif Require Import Json JsonFacts Utf8 Encoding EncodingProofs Pointer PointerProofs SchemaApi
  Generate GenerateSpec GenerateProofs GenerateRun GenerateTerm GenerateTrace GenerateDoc.
Import ListNotations.
Open Scope string_scope.
Open Scope list_scope.

Ltac compute_it := vm_compute; reflexivity.
Ltac find_in := cbn [In g_log]; repeat split; repeat (first [left; reflexivity | right]).

(** ** A family of types used in the examples: a recursive type, two types called Foo, and a type
    using them all. *)
Inductive demo := Node | FooA | FooB | Pair | Inl.

Definition demo_info (t : demo) : tyinfo demo unit :=
  match t with
  | Node => TyInfo false "Node" "m::Node"
              (Sub Node (fun s => Ret (obj [("properties", obj [("next", s)])])))
  | FooA => TyInfo false "Foo" "a::Foo" (Ret (obj [("type", JStr "string")]))
  | FooB => TyInfo false "Foo" "b::Foo" (Ret (obj [("type", JStr "integer")]))
  | Inl => TyInfo true "Inl" "m::Inl" (Sub Node (fun s => Ret (obj [("items", s)])))
  | Pair => TyInfo false "Pair" "m::Pair"
              (Sub FooA (fun a => Sub FooB (fun b => Sub Node (fun c => Sub Inl (fun d =>
               Ret (obj [("properties", obj [("a", a); ("b", b); ("c", c); ("d", d)])]))))))
  end.

Definition demo_set : settings unit := Settings "/$defs" None [] false Deserialize.
Definition demo_inline : settings unit := Settings "/$defs" None [] true Deserialize.
Definition demo_gen : gen demo unit := new_gen demo_set tt.

(** Implementations in the family use only [subschema_for]. *)
Lemma demo_plain : all_allowed plain demo_info.
Proof. intros []; cbn; auto. Qed.

Lemma demo_no_edit : all_allowed no_edit demo_info.
Proof. intros []; cbn; auto. Qed.

(** ** C08 *)
(** Partial: no transforms, definition names without a byte below 0x10 (see C01), and a
    definitions path which is not percent-encoded and not blocked by the root type's own schema. *)
Theorem C08_references_resolve_partial : forall Ty St (info : Ty -> tyinfo Ty St) n p s st x g m t doc g' l,
  all_allowed no_edit info -> allowed no_set p ->
  run info n p (new_gen s st) = Some (x, g) ->
  root_schema_for info (json_schema info m) t g = Some (doc, g') ->
  g_log g' = l ++ g_log g ->
  s_transforms s = [] -> good_path (s_path s) ->
  utf8_valid (definitions_path_stripped (s_path s)) = true ->
  no_pct (definitions_path_stripped (s_path s)) = true ->
  (forall u, utf8_valid (t_name (info u)) = true /\ sforall not_control (t_name (info u)) = true) ->
  (forall sch, produced info t sch g' -> room (path_tokens (s_path s)) (root_object info t s sch)) ->
  forall rs u r, In (EvRef rs u r) l -> r <> "#" ->
  exists d v, s_pointer doc r = Some d /\ t_id (info v) = t_id (info u) /\ produced info v d g'.
Proof.
  intros Ty St info n p s st x g m t doc g' l HA Hp HRun. intros.
  assert (HS : all_allowed no_set info).
  { intros y. assert (W : forall q : prog Ty St, allowed no_edit q -> allowed no_set q).
    { induction q; cbn; intuition. } apply W, HA. }
  pose proof (run_keeps info n p HS Hp _ _ _ HRun) as [F K].
  pose proof (K [] (inv_new info s st)) as I. pose proof (fr_set _ _ F) as ES. cbn in ES.
  rewrite <- ES in *. eapply refs_resolve; eauto.
Qed.
Print Assumptions C08_references_resolve_partial.

(** After one root, generate another: two types called Foo, and a recursive one. *)
Example C08_example :
  exists x g doc g' l,
    run demo_info 5 (Root Node (fun _ => Sub FooB (fun s => Ret s))) demo_gen = Some (x, g)
    /\ root_schema_for demo_info (json_schema demo_info 5) Pair g = Some (doc, g')
    /\ g_log g' = l ++ g_log g
    /\ In (EvRef [("m::Pair", Deserialize)] FooA "#/$defs/Foo2") l
    /\ s_pointer doc "#/$defs/Foo2" = Some (obj [("type", JStr "string")])
    /\ s_pointer doc "#/$defs/Foo" = Some (obj [("type", JStr "integer")])
    /\ s_pointer doc "#/$defs/Node" = Some (obj [("properties", obj [("next", new_ref "#/$defs/Node")])])
    /\ room (path_tokens "/$defs") (root_object demo_info Pair demo_set doc) /\ good_path "/$defs".
Proof.
  eexists _, _, _, _, _. split; [vm_compute; reflexivity|]. split; [vm_compute; reflexivity|].
  split; [cbn [g_log]; match goal with |- ?a = ?l ++ ?b =>
     let l' := eval vm_compute in (firstn (length a - length b) a) in instantiate (1 := l') end; reflexivity|].
  split; [find_in|]. repeat split; try (vm_compute; reflexivity).
  exists "$defs". split; [reflexivity|discriminate].
Qed.

(** ** C09 *)
(** Two references that coincide were asked for the same type; taking definitions, reading them,
    nested roots and clones are allowed in the history. *)
Theorem C09_distinct_types_distinct_definitions : forall Ty St (info : Ty -> tyinfo Ty St) n p s st x g,
  all_allowed no_set info -> allowed no_set p ->
  run info n p (new_gen s st) = Some (x, g) ->
  forall rs t r rs' u r', In (EvRef rs t r) (g_log g) -> In (EvRef rs' u r') (g_log g) ->
  r <> "#" -> r = r' -> t_id (info t) = t_id (info u).
Proof.
  intros Ty St info n p s st x g HA Hp HRun rs t r rs' u r' H1 H2 HN <-.
  pose proof (run_keeps info n p HA Hp _ _ _ HRun) as [F K].
  pose proof (K [] (inv_new info s st)) as I.
  destruct (inv_ref _ _ _ I _ _ _ H1) as [?|(a & Ha & Ha')]; [congruence|].
  destruct (inv_ref _ _ _ I _ _ _ H2) as [?|(b & Hb & Hb')]; [congruence|].
  assert (a = b) by (apply (reference_inj (s_path (g_set g))); congruence). subst b.
  pose proof (inv_inj _ _ _ I _ _ _ Ha' Hb') as HE. unfold uid_of in HE. congruence.
Qed.
Print Assumptions C09_distinct_types_distinct_definitions.

(** The definition stored under a name was produced by the type whose references use the name. *)
Theorem C09_definition_belongs_to_owner : forall Ty St (info : Ty -> tyinfo Ty St) n p s st x g,
  all_allowed no_set info -> allowed no_set p ->
  run info n p (new_gen s st) = Some (x, g) ->
  forall k d, mget k (g_defs g) = Some d ->
  exists v, produced info v d g
    /\ forall rs u, In (EvRef rs u (reference (s_path s) k)) (g_log g) -> t_id (info u) = t_id (info v).
Proof.
  intros Ty St info n p s st x g HA Hp HRun k d Hd.
  pose proof (run_keeps info n p HA Hp _ _ _ HRun) as [F K].
  pose proof (K [] (inv_new info s st)) as I. pose proof (fr_set _ _ F) as ES. cbn in ES.
  destruct (inv_defs _ _ _ I _ _ Hd) as [_ [[v Hv]|[]]].
  destruct (inv_prod _ _ _ I _ _ _ Hv) as [HP Hn]. exists v. split; [exact HP|].
  intros rs u Hu. destruct (inv_ref _ _ _ I _ _ _ Hu) as [HC|(a & Ha & Ha')].
  - now apply reference_not_root in HC.
  - rewrite ES in Ha. apply reference_inj in Ha. subst a.
    pose proof (inv_inj _ _ _ I _ _ _ Ha' Hn) as HE. unfold uid_of in HE. congruence.
Qed.
Print Assumptions C09_definition_belongs_to_owner.

Example C09_example :
  exists x g, run demo_info 5 (Sub Pair (fun _ => TakeDefs true (fun _ => Root FooA (fun s => Ret s)))) demo_gen
    = Some (x, g) /\ In (EvRef [] Pair "#/$defs/Pair") (g_log g)
    /\ In (EvRef [] FooA "#/$defs/Foo") (g_log g) /\ In (EvRef [] FooB "#/$defs/Foo2") (g_log g).
Proof. eexists _, _. split; [compute_it|]. find_in. Qed.

(** ** C10 *)
Theorem C10_name_choice : forall used base,
  ~ In (choose_name used base) used
  /\ (~ In base used -> choose_name used base = base)
  /\ (In base used -> exists i, 2 <= i /\ choose_name used base = numbered base i
        /\ forall j, 2 <= j < i -> In (numbered base j) used).
Proof.
  intros used base. split; [apply choose_name_fresh|]. unfold choose_name.
  destruct (smem base used) eqn:E.
  - apply smem_In in E. split; [contradiction|]. intros _.
    destruct (first_free (S (length used)) used base 2) eqn:F.
    + apply first_free_spec in F as (j & H1 & -> & _ & H2). eauto.
    + now apply first_free_some in F.
  - assert (~ In base used) by (intros H; apply smem_In in H; congruence). split; [auto|contradiction].
Qed.
Print Assumptions C10_name_choice.

(** The search stops, after at most one more attempt than there are used names. *)
Theorem C10_search_terminates : forall used base, first_free (S (length used)) used base 2 <> None.
Proof. intros. apply first_free_some. Qed.
Print Assumptions C10_search_terminates.

(** What a newly referenced type gets: the used names are those of the references handed out so
    far. *)
Theorem C10_new_reference : forall Ty St (info : Ty -> tyinfo Ty St) n p s st x g js t y g',
  all_allowed no_set info -> allowed no_set p ->
  run info n p (new_gen s st) = Some (x, g) ->
  (forall rs u r, In (EvRef rs u r) (g_log g) -> r <> "#" -> t_id (info u) <> t_id (info t)) ->
  t_inline (info t) = false -> s_inline s = false ->
  subschema_for info js t g = Some (y, g') ->
  exists used, (forall k, In k used <-> exists rs u, In (EvRef rs u (reference (s_path s) k)) (g_log g))
    /\ y = new_ref (reference (s_path s) (choose_name used (t_name (info t)))).
Proof.
  intros Ty St info n p s st x g js t y g' HA Hp HRun HNew HI HS HSub.
  pose proof (run_keeps info n p HA Hp _ _ _ HRun) as [F K].
  pose proof (K [] (inv_new info s st)) as I. pose proof (fr_set _ _ F) as ES. cbn in ES.
  exists (g_used g). split.
  - intros k. split.
    + intros Hk. destruct (inv_used_ref _ _ _ I k Hk) as (rs & u & H). rewrite ES in H. eauto.
    + intros (rs & u & H). destruct (inv_ref _ _ _ I _ _ _ H) as [HC|(a & Ha & Ha')].
      * now apply reference_not_root in HC.
      * rewrite ES in Ha. apply reference_inj in Ha. subst a. eapply inv_used; eauto.
  - unfold subschema_for in HSub. destruct (find_ref info t g) as [[[r i] g1]|] eqn:EF.
    + pose proof (find_ref_name _ _ _ _ _ _ EF) as [(_ & _ & _ & HR)|(m & -> & HN & _ & _ & HG)].
      * rewrite (fr_roots _ _ F) in HR. discriminate.
      * assert (Hm : m = choose_name (g_used g) (t_name (info t))).
        { destruct HG as [->|(_ & _ & Hm)]; [|exact Hm]. exfalso.
          pose proof (inv_used _ _ _ I _ _ HN) as HU.
          destruct (inv_used_ref _ _ _ I _ HU) as (rs & u & H).
          apply (HNew rs u _ H); [apply reference_not_root|].
          destruct (inv_ref _ _ _ I _ _ _ H) as [HC|(a & Ha & Ha')].
          - now apply reference_not_root in HC.
          - apply reference_inj in Ha. subst a.
            pose proof (inv_inj _ _ _ I _ _ _ Ha' HN) as HE. unfold uid_of in HE. congruence. }
        rewrite ES, Hm in HSub. destruct i.
        -- destruct (insert_new_subschema_for _ _ _ _ _); [|discriminate]. congruence.
        -- congruence.
    + exfalso. unfold find_ref in EF. rewrite HI, ES, HS in EF. cbn in EF.
      destruct (match g_roots g with [] => false | r0 :: _ => uid_eqb r0 _ end); [discriminate|].
      destruct (uget _ _); discriminate.
Qed.
Print Assumptions C10_new_reference.

Example C10_example : choose_name ["Foo"; "Foo2"; "Bar"; "Foo4"] "Foo" = "Foo3"
  /\ choose_name ["Foo"] "Foo2" = "Foo2" /\ numbered "Foo" 12 = "Foo12".
Proof. repeat split. Qed.

Example C10_example_new :
  exists x g g', run demo_info 5 (Sub FooA (fun s => Ret s)) demo_gen = Some (x, g)
   /\ (forall rs u r, In (EvRef rs u r) (g_log g) -> r <> "#" -> t_id (demo_info u) <> "b::Foo")
   /\ subschema_for demo_info (json_schema demo_info 5) FooB g = Some (new_ref "#/$defs/Foo2", g').
Proof.
  eexists _, _, _. split; [compute_it|]. split; [|compute_it].
  cbn [In g_log]. intros rs u r H _. repeat destruct H as [H|H]; try discriminate; [|contradiction].
  injection H as _ <- _. discriminate.
Qed.

(** ** C11 *)
(** References for one type are all the same (a reference "#" to the root being generated is
    not kept: see C16). *)
Theorem C11_references_stable : forall Ty St (info : Ty -> tyinfo Ty St) n p s st x g,
  all_allowed no_set info -> allowed no_set p ->
  run info n p (new_gen s st) = Some (x, g) ->
  forall rs t r rs' u r', In (EvRef rs t r) (g_log g) -> In (EvRef rs' u r') (g_log g) ->
  r <> "#" -> r' <> "#" -> t_id (info t) = t_id (info u) -> r = r'.
Proof.
  intros Ty St info n p s st x g HA Hp HRun rs t r rs' u r' H1 H2 HN HN' HE.
  pose proof (run_keeps info n p HA Hp _ _ _ HRun) as [F K].
  pose proof (K [] (inv_new info s st)) as I.
  destruct (inv_ref _ _ _ I _ _ _ H1) as [?|(a & Ha & Ha')]; [congruence|].
  destruct (inv_ref _ _ _ I _ _ _ H2) as [?|(b & Hb & Hb')]; [congruence|].
  unfold uid_of in Ha', Hb'. rewrite HE in Ha'. congruence.
Qed.
Print Assumptions C11_references_stable.

(** Asking again has no effect: the answer is the same whatever the implementations are ([js] is
    arbitrary, so none is run) and the generator is unchanged apart from the trace. [g2] is any
    later state, at top level or inside implementations: settings are the same, names and
    definitions have only grown. *)
Theorem C11_repeat_no_effect : forall Ty St (info : Ty -> tyinfo Ty St) n p s st x g g2 js rs t r,
  all_allowed no_edit info -> allowed no_edit p ->
  run info n p (new_gen s st) = Some (x, g) -> In (EvRef rs t r) (g_log g) -> r <> "#" ->
  g_set g2 = g_set g ->
  (forall u k, uget u (g_names g) = Some k -> uget u (g_names g2) = Some k) ->
  (forall k, mhas k (g_defs g) = true -> mhas k (g_defs g2) = true) ->
  s_inline s = false \/ umem (uid_of info g2 t) (g_pending g2) = true ->
  hd_error (g_roots g2) <> Some (uid_of info g2 t) ->
  exists g3, subschema_for info js t g2 = Some (new_ref r, g3) /\ same_state g2 g3.
Proof.
  intros Ty St info n p s st x g g2 js rs t r HA Hp HRun Hin Hr ES HN HD HI HR.
  destruct (run_grows info n p HA Hp _ _ _ HRun) as [l A].
  pose proof (ad_log _ _ _ _ A) as EL. cbn in EL. rewrite app_nil_r in EL. rewrite EL in Hin.
  destruct (ad_ref _ _ _ _ A _ _ _ Hin) as [HInl [[HC _]|(k & -> & Hk & Hd)]]; [congruence|].
  pose proof (fr_set _ _ (ad_frame _ _ _ _ A)) as ES'. cbn in ES', Hk. cbn [new_gen g_set].
  assert (EU : uid_of info g2 t = uid_of info (new_gen s st) t).
  { apply uid_of_set. cbn. congruence. }
  assert (find_ref info t g2 = Some (reference (s_path s) k, None, g2)) as EF.
  { unfold find_ref. rewrite ES, ES', HInl. cbn [negb andb].
    assert (negb (s_inline s) || umem (uid_of info g2 t) (g_pending g2) = true) as ->.
    { destruct HI as [->| ->]; [reflexivity|apply orb_true_r]. }
    cbn [negb]. destruct (g_roots g2) as [|r0 rs0] eqn:ER.
    2: destruct (uid_eqb r0 (uid_of info g2 t)) eqn:EQ.
    2: { apply uid_eqb_eq in EQ. cbn in HR. congruence. }
    all: rewrite EU; rewrite (HN _ _ Hk); now rewrite (HD _ Hd). }
  unfold subschema_for. rewrite EF. eexists. split; [reflexivity|]. repeat split.
Qed.
Print Assumptions C11_repeat_no_effect.

Example C11_example :
  exists x g, run demo_info 5 (Sub Pair (fun s => Ret s)) demo_gen = Some (x, g)
    /\ In (EvRef [] Node "#/$defs/Node") (g_log g)
    /\ exists g3, subschema_for demo_info (fun _ _ => None) Node g = Some (new_ref "#/$defs/Node", g3)
         /\ g_defs g3 = g_defs g.
Proof.
  eexists _, _. split; [compute_it|]. split; [find_in|]. eexists. split; compute_it.
Qed.

(** ** C12 *)
(** Whatever state the generator is in (in particular in the middle of generating other types):
    definitions that are there keep their value, and a definition registered by the call holds
    what the implementation of its type returned, registered once. *)
Theorem C12_definitions_written_once : forall Ty St (info : Ty -> tyinfo Ty St) n p g x g' l,
  all_allowed no_edit info -> allowed no_edit p ->
  run info n p g = Some (x, g') -> g_log g' = l ++ g_log g ->
  (forall k d, mget k (g_defs g) = Some d -> mget k (g_defs g') = Some d)
  /\ (forall k d, mget k (g_defs g) = None -> mget k (g_defs g') = Some d -> exists t, In (EvDef t k d) l)
  /\ (forall t k d, In (EvDef t k d) l -> mget k (g_defs g') = Some d).
Proof.
  intros Ty St info n p g x g' l HA Hp HRun EL.
  destruct (run_grows info n p HA Hp _ _ _ HRun) as [l' A].
  assert (l' = l) as ->.
  { pose proof (ad_log _ _ _ _ A) as H0. rewrite EL in H0. now apply app_inv_tail in H0. }
  split; [apply (ad_defs _ _ _ _ A)|]. split.
  - intros k d H1 H2. destruct (ad_new _ _ _ _ A k d H1 H2) as (t & rs & H & _). eauto.
  - intros t k d H. apply (ad_def _ _ _ _ A _ _ _ H).
Qed.
Print Assumptions C12_definitions_written_once.

(** At the end of any history (taking definitions allowed, even inside implementations) every
    definition is what an implementation returned. *)
Theorem C12_no_placeholder : forall Ty St (info : Ty -> tyinfo Ty St) n p s st x g,
  all_allowed no_set info -> allowed no_set p ->
  run info n p (new_gen s st) = Some (x, g) ->
  forall k d, mget k (g_defs g) = Some d -> exists t, In (EvDef t k d) (g_log g) /\ produced info t d g.
Proof.
  intros Ty St info n p s st x g HA Hp HRun k d Hd.
  pose proof (run_keeps info n p HA Hp _ _ _ HRun) as [F K].
  pose proof (K [] (inv_new info s st)) as I.
  destruct (inv_defs _ _ _ I _ _ Hd) as [_ [[v Hv]|[]]]. exists v. split; [exact Hv|].
  apply (inv_prod _ _ _ I _ _ _ Hv).
Qed.
Print Assumptions C12_no_placeholder.

Example C12_example :
  exists x g, run demo_info 5 (Sub Node (fun _ => Sub Pair (fun s => Ret s))) demo_gen = Some (x, g)
    /\ mget "Node" (g_defs g) = Some (obj [("properties", obj [("next", new_ref "#/$defs/Node")])]).
Proof. eexists _, _. split; compute_it. Qed.

(** ** C13 *)
Theorem C13_bookkeeping_restored : forall Ty St (info : Ty -> tyinfo Ty St) n p g x g',
  run info n p g = Some (x, g') ->
  g_pending g' = g_pending g /\ g_roots g' = g_roots g /\ g_set g' = g_set g.
Proof.
  intros Ty St info n p g x g' H. apply run_frame in H. destruct H; auto.
Qed.
Print Assumptions C13_bookkeeping_restored.

(** In particular implementations called directly by user code. *)
Theorem C13_implementations_restore : forall Ty St (info : Ty -> tyinfo Ty St) n t g x g',
  json_schema info n t g = Some (x, g') -> g_pending g' = g_pending g /\ g_roots g' = g_roots g.
Proof.
  intros Ty St info n t g x g' H. apply json_schema_frame in H. destruct H; auto.
Qed.
Print Assumptions C13_implementations_restore.

Example C13_example :
  let g := with_roots [("q", Serialize)] (with_pending [("z", Deserialize)] demo_gen) in
  exists x g', run demo_info 5 (Root Pair (fun _ => Sub Node (fun s => Ret s))) g = Some (x, g')
    /\ g_pending g' = [("z", Deserialize)] /\ g_roots g' = [("q", Serialize)].
Proof. eexists _, _. split; [compute_it|]. split; compute_it. Qed.

(** ** C14 *)
(** [direct info t u]: [t]'s implementation runs [u]'s directly, or by [subschema_for] of an
    always-inline [u]. If no cycle consists of such steps only, every program ends, from every
    generator state, with or without [inline_subschemas]. *)
Theorem C14_generation_terminates : forall Ty St (info : Ty -> tyinfo Ty St) (family : list Ty),
  (forall t, In t family) ->
  (forall t, ~ clos_trans Ty (direct info) t t) ->
  all_allowed no_edit_no_fork info ->
  forall p g, allowed no_edit_no_fork p -> exists n x, run info n p g = Some x.
Proof.
  intros Ty St info family Hall Hac HR p g Hp.
  apply (programs_return info (map (fun t => t_id (info t)) family)); auto.
  - intros t. apply in_map_iff. eauto.
  - apply (acyclic_wf (direct info) family); auto.
Qed.
Print Assumptions C14_generation_terminates.

(** The same for an infinite family with finitely many schema ids. *)
Theorem C14_finitely_many_ids : forall Ty St (info : Ty -> tyinfo Ty St) (ids : list string),
  (forall t, In (t_id (info t)) ids) ->
  well_founded (fun u t => direct info t u) ->
  all_allowed no_edit_no_fork info ->
  forall p g, allowed no_edit_no_fork p -> exists n x, run info n p g = Some x.
Proof. intros Ty St info ids Hi Hw HR p g. now apply programs_return with (ids := ids). Qed.
Print Assumptions C14_finitely_many_ids.

(** The answer does not depend on how much fuel is given. *)
Theorem C14_fuel_irrelevant : forall Ty St (info : Ty -> tyinfo Ty St) n m p g x y,
  run info n p g = Some x -> run info m p g = Some y -> x = y.
Proof. intros. eapply run_det; eauto. Qed.
Print Assumptions C14_fuel_irrelevant.

Example C14_example : forall p g, allowed no_edit_no_fork p -> exists n x, run demo_info n p g = Some x.
Proof.
  apply (C14_generation_terminates _ _ demo_info [Node; FooA; FooB; Pair; Inl]).
  - intros []; cbn; auto 10.
  - assert (HD : forall t u, direct demo_info t u -> t = Pair /\ u = Inl).
    { intros [] u [H|[H E]]; cbn in H; repeat match type of H with
        | _ \/ _ => destruct H as [H|H] | ex _ => destruct H as [? H] end;
        subst; try contradiction; try discriminate; auto. }
    assert (HT : forall t u, clos_trans demo (direct demo_info) t u -> t = Pair /\ u = Inl).
    { induction 1 as [t u H|t u v H1 [-> ->] H2 [H3 H4]]; [auto|discriminate]. }
    intros t H. apply HT in H as [-> H]. discriminate.
  - intros []; cbn; auto 10.
Qed.

(** The proviso is needed: an always-inline type containing itself is never finished. *)
Theorem C14_inline_recursion_diverges : exists info : unit -> tyinfo unit unit,
  all_allowed plain info /\ forall n g, json_schema info n tt g = None.
Proof.
  exists (fun _ => TyInfo true "T" "T" (Sub tt (fun s => Ret s))). split; [intros t; cbn; auto|].
  intros n. induction n as [|n IH]; intros g; [reflexivity|].
  cbn [json_schema t_body run_prog]. unfold subschema_for, find_ref. cbn [t_inline negb andb].
  unfold json_schema_internal. now rewrite IH.
Qed.
Print Assumptions C14_inline_recursion_diverges.

(** ** C15 *)
Theorem C15_into_root_agrees : forall Ty St (info : Ty -> tyinfo Ty St) js t g,
  into_root_schema_for info js t g = option_map fst (root_schema_for info js t g).
Proof.
  intros. unfold into_root_schema_for, root_schema_for.
  destruct (json_schema_internal _ _ _ _) as [[s1 g1]|]; [|reflexivity]. cbn [take_definitions].
  unfold apply_transforms. cbn [with_defs g_set g_tst].
  destruct (fold_left _ _ _). reflexivity.
Qed.
Print Assumptions C15_into_root_agrees.

(** Partial: implementations that only use [subschema_for], direct calls and the settings, and
    transforms whose output does not depend on their own state. The generator may be in any
    state. *)
Theorem C15_root_twice_partial : forall Ty St (info : Ty -> tyinfo Ty St) n t g doc g1,
  all_allowed plain info ->
  (forall f, In f (s_transforms (g_set g)) -> forall s a b, fst (f s a) = fst (f s b)) ->
  root_schema_for info (json_schema info n) t g = Some (doc, g1) ->
  exists g2, root_schema_for info (json_schema info n) t g1 = Some (doc, g2)
    /\ g_defs g2 = g_defs g1 /\ g_names g2 = g_names g1.
Proof.
  intros Ty St info n t g doc g1 HA HT E.
  assert (HX : forall (fs : list (json -> St -> json * St)),
     (forall f, In f fs -> forall s a b, fst (f s a) = fst (f s b)) ->
     forall s a b, fst (fold_left (fun '(s, st) f => f s st) fs (s, a))
                 = fst (fold_left (fun '(s, st) f => f s st) fs (s, b))).
  { induction fs as [|f fs IH]; intros Hf s a b; [reflexivity|]. cbn [fold_left].
    pose proof (Hf f (or_introl eq_refl) s a b) as H0.
    destruct (f s a) as [s1 a1], (f s b) as [s2 b2]. cbn in H0. subst s2.
    apply IH. intros f' Hf'. apply Hf. now right. }
  pose proof (root_frame info _ t g doc g1 (fun g s g' => json_schema_frame info n t g s g') E) as F.
  unfold root_schema_for in *.
  rewrite (uid_of_set info g g1) by apply (fr_set _ _ F).
  set (u := uid_of info g t) in *.
  destruct (json_schema_internal (json_schema info n) t u (with_roots (u :: g_roots g) g))
    as [[s1 h1]|] eqn:E1; [|discriminate].
  destruct (apply_transforms _ h1) as [s2 h2] eqn:E2. injection E as <- <-.
  pose proof (apply_transforms_frame _ _ _ _ E2) as [st ->].
  pose proof E1 as E1'. apply internal_frame in E1' as F1; [|apply json_schema_frame].
  destruct (internal_replay _ t u _ _ _ (with_roots (u :: g_roots g) (with_tst st h1))
     (json_schema_frame info n) (json_schema_replay info n HA) E1) as (k & E3 & S).
  { destruct F1 as [F1 F2 F3 F4 _]. cbn in *. repeat split; auto. }
  cbn [with_roots g_roots with_tst tl].
  assert (ER : tl (g_roots h1) = g_roots g).
  { rewrite (fr_roots _ _ F1). reflexivity. }
  rewrite ER. change (with_roots (u :: g_roots g) (with_roots (g_roots g) (with_tst st h1)))
    with (with_roots (u :: g_roots g) (with_tst st h1)).
  rewrite E3. destruct S as (S1 & S2 & S3 & S4 & S5 & S6 & S7). cbn in S1, S2, S3, S4, S5, S6, S7.
  rewrite S1, S3.
  set (d0 := JObj _) in *. unfold apply_transforms in *.
  pose proof (fr_set _ _ F1) as ES. cbn in ES.
  pose proof (HX (s_transforms (g_set h1)) (ltac:(rewrite ES; exact HT)) d0 (g_tst h1) (g_tst k)) as H0.
  rewrite S1. destruct (fold_left _ _ (d0, g_tst h1)) as [a1 b1].
  destruct (fold_left _ _ (d0, g_tst k)) as [a2 b2]. cbn in H0. subst a2.
  injection E2 as <- _. eexists. split; [reflexivity|]. cbn. auto.
Qed.
Print Assumptions C15_root_twice_partial.

(** More generally: running a plain program again, from any later state in which nothing was
    removed, gives the same answers and changes nothing. *)
Theorem C15_replay : forall Ty St (info : Ty -> tyinfo Ty St) n p g x g' h,
  all_allowed plain info -> allowed plain p ->
  run info n p g = Some (x, g') -> agree g' h ->
  exists h', run info n p h = Some (x, h') /\ same_state h h'.
Proof. intros. eapply run_replay; eauto. Qed.
Print Assumptions C15_replay.

Example C15_example :
  exists doc g1 g2, root_schema_for demo_info (json_schema demo_info 5) Pair demo_gen = Some (doc, g1)
    /\ root_schema_for demo_info (json_schema demo_info 5) Pair g1 = Some (doc, g2)
    /\ mget "$defs" (ensure_obj doc) <> None.
Proof. eexists _, _, _. split; [compute_it|]. split; [compute_it|]. discriminate. Qed.

(** Finding: an implementation that embeds a root schema sees the definitions made so far, so that
    the second result differs from the first. *)
Theorem C15_root_twice_refuted : exists (info : demo -> tyinfo demo unit) doc g1 doc' g2,
  root_schema_for info (json_schema info 5) Pair demo_gen = Some (doc, g1)
  /\ root_schema_for info (json_schema info 5) Pair g1 = Some (doc', g2) /\ doc <> doc'.
Proof.
  exists (fun t => match t with
                   | Pair => TyInfo false "Pair" "Pair" (Root FooA (fun d => Sub Node (fun _ => Ret (obj [("x", d)]))))
                   | t => demo_info t end).
  eexists _, _, _, _. split; [compute_it|]. split; [compute_it|]. discriminate.
Qed.
Print Assumptions C15_root_twice_refuted.

(** ** C16 *)
(** Partial: references asked for while this root is generated (not definitions left by an
    earlier root on the same generator), and no nested root_schema_for. *)
Theorem C16_hash_is_root_partial : forall Ty St (info : Ty -> tyinfo Ty St) n t g doc g' l,
  all_allowed no_edit info -> all_allowed no_root info ->
  root_schema_for info (json_schema info n) t g = Some (doc, g') -> g_log g' = l ++ g_log g ->
  forall rs u, In (EvRef rs u "#") l -> t_id (info u) = t_id (info t) /\ s_pointer doc "#" = Some doc.
Proof.
  intros Ty St info n t g doc g' l HE HA E EL rs u Hin. split; [|reflexivity].
  assert (G : grows info g g') by (eapply root_grows; [apply json_schema_grows, HE|exact E]).
  destruct G as [l' A]. assert (l' = l) as ->.
  { pose proof (ad_log _ _ _ _ A) as H0. rewrite EL in H0. now apply app_inv_tail in H0. }
  destruct (ad_ref _ _ _ _ A rs u "#" Hin) as [_ [[_ HR]|(k & HC & _)]].
  2: { symmetry in HC. now apply reference_not_root in HC. }
  unfold root_schema_for in E.
  destruct (json_schema_internal _ _ _ _) as [[s1 h1]|] eqn:E1; [|discriminate].
  destruct (apply_transforms _ h1) as [s2 h2] eqn:E2. injection E as <- <-.
  apply apply_transforms_frame in E2 as [st ->].
  apply internal_same_roots in E1 as [_ (l1 & EL1 & HL)]; [|apply json_schema_same_roots, HA].
  cbn in EL1, EL. rewrite EL in EL1. apply app_inv_tail in EL1. subst l1.
  rewrite (HL _ _ _ Hin) in HR. cbn in HR. unfold uid_of in HR. congruence.
Qed.
Print Assumptions C16_hash_is_root_partial.

(** A fresh generator: nothing was left by earlier roots. *)
Example C16_example : exists doc g', 
  root_schema_for demo_info (json_schema demo_info 5) Node demo_gen = Some (doc, g')
  /\ In (EvRef [("m::Node", Deserialize)] Node "#") (g_log g').
Proof. eexists _, _. split; [compute_it|]. find_in. Qed.

(** Finding: on a generator used for two roots, a definition made for the first one keeps "#",
    which denotes the second root in the second document. Here [FooA] contains [Node], which
    contains [FooA]: generated under the root [FooA], the definition of [Node] says "#" for
    [FooA]; in the document of [FooB] it then stands for [FooB]. *)
Theorem C16_hash_is_root_refuted : exists (info : demo -> tyinfo demo unit) doc1 g1 doc2 g2,
  all_allowed plain info
  /\ root_schema_for info (json_schema info 5) FooA demo_gen = Some (doc1, g1)
  /\ root_schema_for info (json_schema info 5) FooB g1 = Some (doc2, g2)
  /\ mget "title" (ensure_obj doc2) = Some (JStr "FooB")
  /\ s_pointer doc2 "#/$defs/Node" = Some (obj [("items", new_ref "#")])
  /\ In (EvRef [("FooA", Deserialize)] FooA "#") (g_log g1).
Proof.
  exists (fun t => match t with
     | FooA => TyInfo false "FooA" "FooA" (Sub Node (fun s => Ret (obj [("items", s)])))
     | FooB => TyInfo false "FooB" "FooB" (Sub Node (fun s => Ret (obj [("items", s)])))
     | Node => TyInfo false "Node" "Node" (Sub FooA (fun s => Ret (obj [("items", s)])))
     | t => demo_info t end).
  eexists _, _, _, _. split; [intros []; cbn; auto|]. split; [compute_it|]. split; [compute_it|].
  repeat split; try compute_it. find_in.
Qed.
Print Assumptions C16_hash_is_root_refuted.

(** ** C17 *)
(** Finding: a clone forgets which type owns which definition, so that a type called like an
    existing definition is given a reference to it. *)
Theorem C17_clone_refuted : exists x g y g' d,
  run demo_info 5 (Sub FooA (fun s => Ret s)) demo_gen = Some (x, g)
  /\ run demo_info 5 (Sub FooB (fun s => Ret s)) (clone_gen g) = Some (y, g')
  /\ y = new_ref "#/$defs/Foo"
  /\ mget "Foo" (g_defs g') = Some d
  /\ json_schema demo_info 1 FooA demo_gen = Some (d, snd (match json_schema demo_info 1 FooA demo_gen with
                                                              Some z => z | None => (JNull, demo_gen) end))
  /\ (forall n h z h', json_schema demo_info n FooB h = Some (z, h') -> z <> d).
Proof.
  eexists _, _, _, _, _. repeat (split; [compute_it|]).
  intros [|n] h z h' E; cbn in E; [discriminate|]. injection E as <- _. discriminate.
Qed.
Print Assumptions C17_clone_refuted.

(** Partial: if schema names tell types apart (two types have the same name exactly when they
    have the same id), clones are as good: after any history on a generator and any history on
    its clone, every reference handed out by the clone is the one to the requested type's name,
    and what is found there was generated for that type. *)
Theorem C17_clone_partial : forall Ty St (info : Ty -> tyinfo Ty St) n p q s st x g y g',
  (forall t u, t_id (info t) = t_id (info u) <-> t_name (info t) = t_name (info u)) ->
  all_allowed no_edit info -> allowed no_set p -> allowed no_edit q ->
  run info n p (new_gen s st) = Some (x, g) ->
  run info n q (clone_gen g) = Some (y, g') ->
  forall l rs t r, g_log g' = l ++ g_log g -> In (EvRef rs t r) l -> r <> "#" ->
  r = reference (s_path s) (t_name (info t))
  /\ exists d v, mget (t_name (info t)) (g_defs g') = Some d
       /\ In (EvDef v (t_name (info t)) d) (g_log g') /\ t_id (info v) = t_id (info t).
Proof.
  intros Ty St info n p q s st x g y g' HN HA Hp Hq R1 R2 l rs t r EL Hin Hr.
  assert (HS : all_allowed no_set info).
  { intros z. assert (W : forall q : prog Ty St, allowed no_edit q -> allowed no_set q).
    { induction q0; cbn; intuition. } apply W, HA. }
  assert (Hq' : allowed no_set q).
  { assert (W : forall q : prog Ty St, allowed no_edit q -> allowed no_set q).
    { induction q0; cbn; intuition. } apply W, Hq. }
  pose proof (run_ckeeps info HN n p HS Hp _ _ _ R1) as [F1 K1].
  pose proof (run_ckeeps info HN n q HS Hq' _ _ _ R2) as [F2 K2].
  pose proof (K2 [] (cinv_clone info [] g (K1 [] (cinv_new info s st)))) as I.
  destruct (run_grows info n q HA Hq _ _ _ R2) as [l' A]. assert (l' = l) as ->.
  { pose proof (ad_log _ _ _ _ A) as H0. cbn in H0. rewrite EL in H0. now apply app_inv_tail in H0. }
  destruct (ad_ref _ _ _ _ A rs t r Hin) as [_ [[HC _]|(k & -> & Hk & Hd)]]; [congruence|].
  pose proof (fr_set _ _ F1) as ES1. pose proof (fr_set _ _ F2) as ES2. cbn in ES1, ES2.
  cbn [clone_gen g_set]. rewrite ES1.
  destruct (ci_names _ _ _ I _ _ Hk) as (t' & HU & ->).
  assert (HI : t_id (info t') = t_id (info t)).
  { unfold uid_of in HU. cbn in HU. congruence. }
  apply HN in HI as HI'. rewrite HI' in *. split; [reflexivity|].
  apply mhas_mget in Hd as [d Hd]. destruct (ci_defs _ _ _ I _ _ Hd) as (v & Hv & [He|[]]).
  exists d, v. repeat split; auto. apply HN. congruence.
Qed.
Print Assumptions C17_clone_partial.

Example C17_example :
  let info := fun t => match t with FooB => TyInfo false "FooB" "b::Foo" (Ret (obj [("type", JStr "integer")]))
                                  | t => demo_info t end in
  (forall t u, t_id (info t) = t_id (info u) <-> t_name (info t) = t_name (info u))
  /\ exists x g y g', run info 5 (Sub FooA (fun s => Ret s)) demo_gen = Some (x, g)
     /\ run info 5 (Sub Pair (fun s => Ret s)) (clone_gen g) = Some (y, g')
     /\ In (EvRef [] FooA "#/$defs/Foo") (g_log g').
Proof.
  cbv zeta. split; [intros [] []; cbn; split; congruence|].
  eexists _, _, _, _. split; [compute_it|]. split; [compute_it|]. find_in.
Qed.

(** A clone of a generator with no definitions is a new generator (but for the trace). *)
Theorem C17_clone_of_empty : forall Ty St (g : gen Ty St), g_defs g = [] ->
  same_state (new_gen (g_set g) (g_tst g)) (clone_gen g).
Proof. intros Ty St g H. unfold same_state. cbn. rewrite H. repeat split. Qed.
Print Assumptions C17_clone_of_empty.

(** ** C19 *)
Theorem C19_take_returns_all : forall Ty St (g : gen Ty St),
  fst (take_definitions false g) = g_defs g
  /\ (forall b, g_defs (snd (take_definitions b g)) = [])
  /\ (forall b, map fst (fst (take_definitions b g)) = map fst (g_defs g)).
Proof.
  intros Ty St g. split; [reflexivity|]. split.
  - intros b. destruct (take_definitions b g) as [d g'] eqn:E.
    apply take_definitions_frame in E as [st ->]. reflexivity.
  - intros []; [|reflexivity]. cbn. generalize (with_defs [] g). induction (g_defs g) as [|[k v] d IH];
      intros h; cbn [transform_values]; [reflexivity|].
    destruct (if is_schema v then apply_transforms v h else (v, h)) as [v' h1]. 
    specialize (IH h1). destruct (transform_values d h1). cbn in *. now rewrite IH.
Qed.
Print Assumptions C19_take_returns_all.

(** Later references have the same name and bring the definition back. *)
Theorem C19_reregistered : forall Ty St (info : Ty -> tyinfo Ty St) n p s st x g b rs t r m y g',
  all_allowed no_edit info -> allowed no_set p ->
  run info n p (new_gen s st) = Some (x, g) -> In (EvRef rs t r) (g_log g) -> r <> "#" ->
  s_inline s = false -> t_inline (info t) = false ->
  subschema_for info (json_schema info m) t (snd (take_definitions b g)) = Some (y, g') ->
  y = new_ref r /\ exists k d, r = reference (s_path s) k /\ mget k (g_defs g') = Some d
     /\ exists v, t_id (info v) = t_id (info t) /\ produced info v d g'.
Proof.
  intros Ty St info n p s st x g b rs t r m y g' HA Hp HRun Hin Hr HI HT E.
  assert (HS : all_allowed no_set info).
  { intros z. assert (W : forall q : prog Ty St, allowed no_edit q -> allowed no_set q).
    { induction q; cbn; intuition. } apply W, HA. }
  pose proof (run_keeps info n p HS Hp _ _ _ HRun) as [F K].
  pose proof (K [] (inv_new info s st)) as I. pose proof (fr_set _ _ F) as ES. cbn in ES.
  destruct (take_definitions b g) as [dd g0] eqn:ET. cbn [snd] in E.
  apply take_definitions_frame in ET as [st' ->].
  set (g0 := with_tst st' (with_defs [] g)) in *.
  assert (I0 : inv info [] g0) by (apply (keeps_take info st' g), I).
  destruct (inv_ref _ _ _ I _ _ _ Hin) as [?|(k & -> & Hk)]; [congruence|].
  assert (K' : keeps info g0 g') by (eapply subschema_keeps; [apply json_schema_keeps, HS|exact E]).
  destruct K' as [F' K']. pose proof (K' [] I0) as I'.
  assert (Hy : y = new_ref (reference (s_path (g_set g)) k) /\ mhas k (g_defs g') = true).
  { unfold subschema_for in E. destruct (find_ref info t g0) as [[[r' i] g1]|] eqn:EF.
    - pose proof (find_ref_name _ _ _ _ _ _ EF) as [(_ & _ & _ & HR)|(k' & -> & Hk' & HD & -> & HG)].
      + cbn in HR. rewrite (fr_roots _ _ F) in HR. discriminate.
      + pose proof (find_ref_frame _ _ _ _ _ _ EF) as F1.
        assert (k' = k) as ->.
        { apply (fr_names _ _ F1) in Hk. change (uid_of info g0 t) with (uid_of info g t) in Hk'. congruence. }
        cbn [g0 with_tst with_defs g_defs mhas mget] in E. unfold insert_new_subschema_for in E.
        destruct (json_schema_internal _ _ _ _) as [[s2 g2]|]; [|discriminate].
        injection E as <- <-. split; [reflexivity|]. cbn. unfold mhas. now rewrite mget_mset, String.eqb_refl.
    - exfalso. unfold find_ref in EF. cbn [g0 with_tst with_defs g_set] in EF. rewrite HT, ES, HI in EF.
      cbn [negb andb orb] in EF. destruct (match g_roots g0 with [] => false | r0 :: _ => uid_eqb r0 _ end);
        [discriminate|]. destruct (uget _ _); discriminate. }
  destruct Hy as [Hy Hd]. split; [exact Hy|]. apply mhas_mget in Hd as [d Hd].
  exists k, d. rewrite ES. split; [reflexivity|]. split; [exact Hd|].
  destruct (inv_defs _ _ _ I' _ _ Hd) as [_ [[v Hv]|[]]].
  destruct (inv_prod _ _ _ I' _ _ _ Hv) as [HP HV]. exists v. split; [|exact HP].
  apply (fr_names _ _ F') in Hk. rewrite (uid_of_set info g0 g') in HV by apply (fr_set _ _ F').
  change (uid_of info g0 v) with (uid_of info g v) in HV.
  pose proof (inv_inj _ _ _ I' _ _ _ HV Hk) as HE. unfold uid_of in HE. congruence.
Qed.
Print Assumptions C19_reregistered.

Example C19_example :
  exists x g, run demo_info 5 (Sub FooA (fun _ => Sub FooB (fun s => Ret s))) demo_gen = Some (x, g)
   /\ map fst (fst (take_definitions true g)) = ["Foo"; "Foo2"]
   /\ exists g', subschema_for demo_info (json_schema demo_info 5) FooB (snd (take_definitions true g))
        = Some (new_ref "#/$defs/Foo2", g') /\ map fst (g_defs g') = ["Foo2"].
Proof.
  eexists _, _. split; [compute_it|]. split; [compute_it|]. eexists. split; compute_it.
Qed.

(** ** C20 *)
(** Every reference in the trace of a history is to a type that is not always inlined and, with
    [inline_subschemas], to a type whose implementation is running at that moment. All methods
    are allowed. *)
Theorem C20_references_only_for_cycles : forall Ty St (info : Ty -> tyinfo Ty St) n p s st x g,
  run info n p (new_gen s st) = Some (x, g) ->
  forall l2 rs t r l1, g_log g = l2 ++ EvRef rs t r :: l1 ->
  t_inline (info t) = false
  /\ (s_inline s = true -> exists t', In t' (running l1) /\ t_id (info t') = t_id (info t)).
Proof.
  intros Ty St info n p s st x g H l2 rs t r l1 E. apply run_refs_ok in H. rewrite E in H.
  apply refs_ok_at in H. now rewrite app_nil_r in H.
Qed.
Print Assumptions C20_references_only_for_cycles.

(** Definitions appear for references only. *)
Theorem C20_no_other_definitions : forall Ty St (info : Ty -> tyinfo Ty St) n p s st x g,
  all_allowed no_set info -> allowed no_set p ->
  run info n p (new_gen s st) = Some (x, g) ->
  forall k d, mget k (g_defs g) = Some d ->
  exists rs t, In (EvRef rs t (reference (s_path s) k)) (g_log g) /\ In (EvDef t k d) (g_log g).
Proof.
  intros Ty St info n p s st x g HA Hp H k d Hd.
  destruct (C12_no_placeholder _ _ info n p s st x g HA Hp H k d Hd) as (t & H1 & _).
  apply run_refs_ok in H. destruct (refs_ok_def _ _ _ _ _ _ _ H H1) as [rs H2].
  rewrite app_nil_r in H2. eauto.
Qed.
Print Assumptions C20_no_other_definitions.

(** When no reference is returned the result is the type's own schema. *)
Theorem C20_inlined : forall Ty St (info : Ty -> tyinfo Ty St) n t g y g',
  t_inline (info t) = true \/ (s_inline (g_set g) = true /\ umem (uid_of info g t) (g_pending g) = false) ->
  subschema_for info (json_schema info n) t g = Some (y, g') -> produced info t y g'.
Proof.
  intros Ty St info n t g y g' H. unfold subschema_for.
  assert (find_ref info t g = None) as ->.
  { unfold find_ref. destruct H as [->|[-> ->]]; cbn; [reflexivity|]. now rewrite andb_false_r. }
  apply internal_produced.
Qed.
Print Assumptions C20_inlined.

Example C20_example :
  exists x g, run demo_info 5 (Sub Pair (fun s => Ret s)) (new_gen demo_inline tt) = Some (x, g)
   /\ map fst (g_defs g) = ["Node"]
   /\ mget "properties" (ensure_obj x) =
      Some (obj [("a", obj [("type", JStr "string")]); ("b", obj [("type", JStr "integer")]);
                 ("c", obj [("properties", obj [("next", new_ref "#/$defs/Node")])]);
                 ("d", obj [("items", obj [("properties", obj [("next", new_ref "#/$defs/Node")])])])]).
Proof. eexists _, _. split; [compute_it|]. split; compute_it. Qed.

(** ** C21 *)
Theorem C21_exactly_the_needed_definitions : forall Ty St (info : Ty -> tyinfo Ty St) n p s st x g,
  all_allowed no_edit info -> allowed no_edit p ->
  run info n p (new_gen s st) = Some (x, g) ->
  forall k, mhas k (g_defs g) = true
    <-> exists rs t, In (EvRef rs t (reference (s_path s) k)) (g_log g).
Proof.
  intros Ty St info n p s st x g HA Hp H k.
  destruct (run_grows info n p HA Hp _ _ _ H) as [l A].
  pose proof (ad_log _ _ _ _ A) as EL. cbn in EL. rewrite app_nil_r in EL. rewrite EL. split.
  - intros Hk. apply mhas_mget in Hk as [d Hd].
    destruct (ad_new _ _ _ _ A k d eq_refl Hd) as (t & rs & _ & H1). eauto.
  - intros (rs & t & Hin). destruct (ad_ref _ _ _ _ A _ _ _ Hin) as [_ [[HC _]|(k' & Hr & _ & Hd)]].
    + now apply reference_not_root in HC.
    + cbn in Hr. apply reference_inj in Hr. now subst.
Qed.
Print Assumptions C21_exactly_the_needed_definitions.

Example C21_example :
  exists x g, run demo_info 5 (Root Pair (fun _ => Sub Inl (fun s => Ret s))) demo_gen = Some (x, g)
   /\ map fst (g_defs g) = ["Foo"; "Foo2"; "Node"].
Proof. eexists _, _. split; compute_it. Qed.
