(** References of a document which the ready-made transforms have rewritten. *)
From Coq Require Import String Ascii List ZArith Bool Lia.
From Verif Require Import Json JsonFacts Utf8 Encoding EncodingProofs Pointer PointerProofs SchemaApi
  Generate GenerateSpec GenerateProofs GenerateRun GenerateTrace GenerateDoc
  Validate ValidateFacts Transform TransformSpec TransformProofs TransformSem TransformNullable TransformUneval
  TransformPost TransformPipe TransformDoc Settings.
Import ListNotations.
Open Scope string_scope.
Open Scope list_scope.

(** ** Specification *)
(** The transforms schemars ships (transform.rs:117-407). *)
Inductive builtin : (json -> json) -> Prop :=
| B_bool skip : builtin (replace_bool skip)
| B_ref : builtin remove_ref_siblings
| B_example : builtin set_single_example
| B_const : builtin replace_const
| B_prefix : builtin replace_prefix_items
| B_nullable rm ac : builtin (add_nullable rm ac)
| B_uneval : builtin replace_uneval.

(** One after the other *)
Definition all_of (Ts : list (json -> json)) (s : json) : json := fold_left (fun x T => T x) Ts s.

(** [k] is no keyword of schemas which a transform visits or rewrites. *)
Definition foreign (k : string) : Prop :=
  shape_of k = Other /\ ~ In k ["$ref"; "allOf"; "examples"; "example"; "const"; "enum"; "nullable"; "type";
    "prefixItems"; "items"; "additionalItems"; "minItems"; "maxItems"; "additionalProperties"; "unevaluatedProperties"; "patternProperties"; "properties"].

(** ** Proofs *)
Lemma on_defs_builtin dk T : In dk ["$defs"; "definitions"] -> builtin T -> on_defs dk T.
Proof.
  intros H HT. assert (H' : In dk kw_map) by (in_cases H; in_names). destruct HT.
  - now apply on_defs_bool. - now apply on_defs_ref. - now apply on_defs_example. - now apply on_defs_const.
  - now apply on_defs_prefix. - now apply on_defs_nullable. - now apply on_defs_uneval.
Qed.

Lemma on_defs_id dk : shape_of dk = Named -> on_defs dk (fun s => s).
Proof.
  intros _. split; auto. intros m. exists m. split; auto. destruct (mget dk m) as [x|]; auto. cbn.
  f_equal. destruct x as [| | | | |p]; auto. cbn. f_equal.
  rewrite <- (map_id p) at 1. apply map_ext. intros [n x]. cbn. unfold try_sub_p. now destruct (is_schema x).
Qed.

Lemma all_of_snoc Ts T s : all_of (Ts ++ [T]) s = T (all_of Ts s).
Proof. unfold all_of. now rewrite fold_left_app. Qed.

Lemma on_defs_ext dk T U : (forall s, T s = U s) -> on_defs dk T -> on_defs dk U.
Proof.
  intros HE [A B]. split; [intros s Hs; rewrite <- HE; auto|]. intros m. destruct (B m) as (m' & E & Hm).
  exists m'. split; [now rewrite <- HE|]. rewrite Hm. destruct (mget dk m) as [x|]; auto. cbn. f_equal.
  destruct x as [| | | | |p]; auto. cbn. f_equal.
  apply map_ext. intros [n x]. cbn. unfold try_sub_p. now rewrite HE.
Qed.

Lemma on_defs_all dk Ts : In dk ["$defs"; "definitions"] -> Forall builtin Ts -> on_defs dk (all_of Ts).
Proof.
  intros H. induction Ts as [|T Ts IH] using rev_ind; intros HF.
  - apply on_defs_id. in_cases H; reflexivity.
  - apply Forall_app in HF as [HF HT]. inversion HT as [|? ? HT1 _]; subst.
    apply (on_defs_ext dk (fun s => T (all_of Ts s))); [intros s; now rewrite all_of_snoc|].
    apply on_defs_comp; auto. now apply on_defs_builtin.
Qed.

(** A key that is no keyword is left alone. *)
Definition keeps_key (k : string) (T : json -> json) : Prop :=
  forall m, exists m', T (JObj m) = JObj m' /\ mget k m' = mget k m.

Lemma post_keeps_key k here : shape_of k = Other -> keeps_key k here -> keeps_key k (post here).
Proof.
  intros Hk HH m. rewrite post_obj. destruct (HH (tmap (post here) m)) as (m' & -> & Hm'). exists m'.
  split; auto. rewrite Hm', mget_tmap, Hk. now destruct (mget k m) as [[]|].
Qed.

Lemma foreign_ne k x : foreign k -> In x ["$ref"; "allOf"; "examples"; "example"; "const"; "enum"; "nullable"; "type";
    "prefixItems"; "items"; "additionalItems"; "minItems"; "maxItems"; "additionalProperties"; "unevaluatedProperties"; "patternProperties"; "properties"] -> String.eqb k x = false.
Proof. intros [_ H] Hx. apply String.eqb_neq. intros ->. auto. Qed.

Ltac away H := repeat first [rewrite mget_mset | rewrite mget_mdel];
  repeat match goal with |- context [String.eqb ?k ?x] => rewrite (foreign_ne k x H) by in_names end; auto.

Lemma keeps_builtin k T : foreign k -> builtin T -> keeps_key k T.
Proof.
  intros H HT. pose proof (proj1 H) as HK. destruct HT.
  - intros m. rewrite replace_bool_unfold.
    assert (Ha : String.eqb k "additionalProperties" = false) by (apply (foreign_ne _ _ H); in_names).
    assert (HO : forall m1, mget k (tmap (replace_bool skip) m1) = mget k m1).
    { intros m1. rewrite mget_tmap, HK. now destruct (mget k m1) as [[]|]. }
    unfold replace_bool_body. destruct (if skip then _ else _) as [ap|].
    + exists (mset "additionalProperties" ap (tmap (replace_bool skip) (mdel "additionalProperties" m))).
      split; [reflexivity|]. now rewrite mget_mset, Ha, HO, mget_mdel, Ha.
    + exists (tmap (replace_bool skip) m). split; [reflexivity|]. apply HO.
  - apply (post_keeps_key k remove_ref_siblings_here); auto. intros m.
    destruct (ref_here_lookups m) as (m' & -> & HL & _). exists m'. split; auto.
    apply HL; intros ->; apply (proj2 H); in_names.
  - apply (post_keeps_key k set_single_example_here); auto. intros m. cbn [set_single_example_here].
    destruct (mget "examples" m) as [[| | | |[]|]|]; eexists; (split; [reflexivity|]); away H.
  - apply (post_keeps_key k replace_const_here); auto. intros m. cbn [replace_const_here].
    destruct (mget "const" m); eexists; (split; [reflexivity|]); away H.
  - apply (post_keeps_key k replace_prefix_here); auto. intros m. cbn [replace_prefix_here].
    destruct (mget "prefixItems" m); [|eauto].
    destruct (mget "items" (mdel "prefixItems" m)); eexists; (split; [reflexivity|]); away H.
  - intros m. rewrite add_nullable_unfold.
    destruct (add_nullable_here_get rm ac m k) as (m' & -> & Hm').
    { intros [<-|[<-|[<-|[]]]]; apply (proj2 H); in_names. }
    exists (tmap (add_nullable rm ac) m'). split; [reflexivity|]. rewrite mget_tmap, HK, Hm'.
    now destruct (mget k m) as [[]|].
  - apply (post_keeps_key k replace_uneval_here); auto. intros m.
    destruct (uneval_here_lookups m) as (m' & -> & HL). exists m'. split; auto.
    apply HL. intros [<-|[<-|[<-|[]]]]; apply (proj2 H); in_names.
Qed.

Lemma keeps_all k Ts : foreign k -> Forall builtin Ts -> keeps_key k (all_of Ts).
Proof.
  intros H. induction Ts as [|T Ts IH] using rev_ind; intros HF m; [exists m; auto|].
  apply Forall_app in HF as [HF HT]. inversion HT as [|? ? HT1 _]; subst. rewrite all_of_snoc.
  destruct (IH HF m) as (m1 & -> & E1). destruct (keeps_builtin k T H HT1 m1) as (m2 & -> & E2).
  exists m2. split; auto. congruence.
Qed.

(** Where the references lead *)
Lemma pointer_walk path n doc : good_path path ->
  utf8_valid (definitions_path_stripped path) = true -> no_pct (definitions_path_stripped path) = true ->
  good_name n -> s_pointer doc (ref_string path n) = walk (path_tokens path ++ [n]) doc.
Proof.
  intros HG HU HP [H1 H2]. unfold s_pointer. rewrite effective_ref_string by auto. unfold value_pointer.
  rewrite tokens_app_slash; [|apply no_slash_escape|destruct HG as (r & -> & _); eauto].
  now rewrite unescape_escape, (lossy_id _ H2).
Qed.

Lemma walk_on_defs dk T m n d : on_defs dk T ->
  (forall y, mget dk m = Some y -> is_obj y = true) ->
  walk [dk; n] (JObj m) = Some d -> walk [dk; n] (T (JObj m)) = Some (if is_schema d then T d else d).
Proof.
  intros HT HO H. cbn in H. destruct (mget dk m) as [y|] eqn:ED; [|discriminate].
  specialize (HO _ eq_refl). destruct y as [| | | | |p]; try discriminate HO. cbn in H.
  destruct (mget n p) as [z|] eqn:EN; [|discriminate]. injection H as ->.
  assert (HD : definition dk (T (JObj m)) n (try_sub_p T d)).
  { apply on_defs_definition; auto. exists d. split; auto. exists m, p. auto. }
  destruct HD as (m' & p' & -> & E1 & E2). cbn. rewrite E1. cbn. now rewrite E2.
Qed.

Lemma walk_keeps k T m l d : keeps_key k T -> walk (k :: l) (JObj m) = Some d -> walk (k :: l) (T (JObj m)) = Some d.
Proof. intros HT H. destruct (HT m) as (m' & -> & E). cbn in *. now rewrite E. Qed.

Section Doc.
Context {Ty St : Type}.
Variable info : Ty -> tyinfo Ty St.

Lemma root_document_raw m t (g : gen Ty St) doc g' :
  root_schema_for info (json_schema info m) t g = Some (doc, g') ->
  exists sch st, produced info t sch g'
    /\ doc = fst (fold_left (fun '(s, st) f => f s st) (s_transforms (g_set g))
        (JObj (add_definitions (s_path (g_set g)) (root_object info t (g_set g) sch) (g_defs g')), st)).
Proof.
  intros H. unfold root_schema_for in H.
  destruct (json_schema_internal _ _ _ _) as [[s1 g1]|] eqn:E1; [|discriminate].
  destruct (apply_transforms _ _) as [s2 g2] eqn:E2. injection H as <- <-.
  pose proof (internal_produced _ _ _ _ _ _ _ E1) as HP.
  apply internal_frame in E1; [|apply json_schema_frame].
  pose proof (fr_set _ _ E1) as ES. cbn in ES.
  unfold apply_transforms in E2. rewrite ES in E2.
  destruct (fold_left _ _ _) as [x st'] eqn:E3 in E2. injection E2 as <- <-.
  exists s1, (g_tst g1). split; [exact HP|]. cbn. now rewrite E3.
Qed.

Lemma refs_resolve_raw m t (g : gen Ty St) doc g' l :
  all_allowed no_edit info -> inv info [] g ->
  root_schema_for info (json_schema info m) t g = Some (doc, g') ->
  g_log g' = l ++ g_log g ->
  good_path (s_path (g_set g)) ->
  utf8_valid (definitions_path_stripped (s_path (g_set g))) = true ->
  no_pct (definitions_path_stripped (s_path (g_set g))) = true ->
  (forall u, good_name (t_name (info u))) ->
  (forall sch, produced info t sch g' ->
     room (path_tokens (s_path (g_set g))) (root_object info t (g_set g) sch)) ->
  forall rs u r, In (EvRef rs u r) l -> r <> "#" ->
  exists m0 st q n d v,
    doc = fst (fold_left (fun '(s, st) f => f s st) (s_transforms (g_set g)) (JObj m0, st))
    /\ walk (path_tokens (s_path (g_set g))) (JObj m0) = Some (JObj q)
    /\ r = ref_string (s_path (g_set g)) n /\ good_name n
    /\ walk (path_tokens (s_path (g_set g)) ++ [n]) (JObj m0) = Some d
    /\ t_id (info v) = t_id (info u) /\ produced info v d g'.
Proof.
  intros HA I E EL HG HU HP HN HR rs u r Hin Hr.
  destruct (root_document_raw _ _ _ _ _ E) as (sch & st & Hsch & ->).
  assert (G : grows info g g') by (eapply root_grows; [apply json_schema_grows, HA|exact E]).
  assert (HS : all_allowed no_set info).
  { intros x. assert (W : forall p : prog Ty St, allowed no_edit p -> allowed no_set p).
    { induction p; cbn; intuition. } apply W, HA. }
  assert (K : keeps info g g') by (eapply root_keeps; [apply json_schema_keeps, HS|exact E]).
  destruct K as [F K]. pose proof (K [] I) as I'. clear K.
  destruct G as [l' A]. assert (l' = l) as ->.
  { pose proof (ad_log _ _ _ _ A) as H0. rewrite EL in H0. now apply app_inv_tail in H0. }
  destruct (ad_ref _ _ _ _ A rs u r Hin) as [_ [[HC _]|(n & -> & HNm & HD)]]; [congruence|].
  apply mhas_mget in HD as [d Hd].
  destruct (inv_defs _ _ _ I' n d Hd) as [[t0 Ht0] [[v Hv]|[]]].
  destruct (inv_prod _ _ _ I' v n d Hv) as [Hpr Hv2].
  assert (HGN : good_name n).
  { destruct (inv_base _ _ _ I' _ _ HNm) as (b & _ & Hb).
    destruct Hb as [->|(i & _ & ->)]; [apply HN|apply good_numbered, HN]. }
  eexists (add_definitions (s_path (g_set g)) (root_object info t (g_set g) sch) (g_defs g')), st.
  assert (HW : exists q, walk (path_tokens (s_path (g_set g))) (JObj (add_definitions (s_path (g_set g)) (root_object info t (g_set g) sch) (g_defs g'))) = Some (JObj q)).
  { unfold add_definitions. destruct (g_defs g') as [|kv defs'] eqn:EDf; [discriminate Hd|].
    rewrite json_pointer_update_good by exact HG.
    destruct (walk_create_spec (path_tokens (s_path (g_set g))) (fun t => mappend t (kv :: defs')) _ (HR _ Hsch)) as [_ ->]. eauto. }
  destruct HW as [q HW].
  exists q, n, d, v. split; [reflexivity|]. split; [exact HW|]. split; [reflexivity|]. split; [exact HGN|].
  split; [|split; [|exact Hpr]].
  - rewrite <- pointer_walk by auto. destruct HGN.
    apply ref_resolves; auto. apply sorted_NoDup, (inv_sorted _ _ _ I').
  - rewrite (uid_of_set info g g') in Hv2 by apply (fr_set _ _ F).
    assert (uid_of info g v = uid_of info g u) as HE.
    { rewrite <- (uid_of_set info g g' v) by apply (fr_set _ _ F).
      rewrite <- (uid_of_set info g g' u) by apply (fr_set _ _ F).
      rewrite <- (uid_of_set info g g' u) in HNm by apply (fr_set _ _ F).
      rewrite <- (uid_of_set info g g' v) in Hv2 by apply (fr_set _ _ F).
      eapply inv_inj; eauto. }
    unfold uid_of in HE. congruence.
Qed.

Lemma fold_pure Ts : forall s (st : St),
  fst (fold_left (fun '(s, st) f => f s st) (map pure Ts) (s, st)) = all_of Ts s.
Proof. induction Ts as [|T Ts IH]; intros s st; [reflexivity|]. apply IH. Qed.
End Doc.
