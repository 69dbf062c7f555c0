(** Whole documents: a schema with its definitions. *)
From Coq Require Import String Ascii List ZArith Bool Lia.
From Verif Require Import Json JsonFacts SchemaApi Validate ValidateFacts Transform TransformSpec
  TransformProofs TransformSem TransformNullable TransformUneval TransformPost TransformPipe.
Import ListNotations.
Open Scope string_scope.

(** ** Specification *)
(** [x] is the definition [n] under the key [dk] ("$defs" or "definitions") of the document. *)
Definition definition (dk : string) (doc : json) (n : string) (x : json) : Prop :=
  exists m p, doc = JObj m /\ mget dk m = Some (JObj p) /\ mget n p = Some x.

(** The environment reads the reference [ref n] as the document's definition [n], for a validator
    of dialect [d]. *)
Definition interprets (d : dialect) (E : env) (dk : string) (ref : string -> string) (doc : json) : Prop :=
  forall n x, definition dk doc n x -> feq (e_ref E (ref n)) (eval d E x).

(** ** Proofs *)
(** [T] acts on the definitions of a document one by one. *)
Definition on_defs (dk : string) (T : json -> json) : Prop :=
  (forall s, is_schema s = true -> is_schema (T s) = true)
  /\ forall m, exists m', T (JObj m) = JObj m'
       /\ mget dk m' = option_map (sub_value_p T Named) (mget dk m).

Lemma post_on_defs dk here : shape_of dk = Named ->
  (forall s, is_schema s = true -> is_schema (here s) = true) ->
  (forall m, exists m', here (JObj m) = JObj m' /\ mget dk m' = mget dk m) ->
  on_defs dk (post here).
Proof.
  intros Hk HS HH. split; [now apply post_schema|]. intros m. rewrite post_obj.
  destruct (HH (tmap (post here) m)) as (m' & -> & Hm'). exists m'. split; auto.
  now rewrite Hm', mget_tmap, Hk.
Qed.

Lemma on_defs_comp dk T U : on_defs dk T -> on_defs dk U -> on_defs dk (fun s => U (T s)).
Proof.
  intros [HT1 HT2] [HU1 HU2]. split; [auto|]. intros m.
  destruct (HT2 m) as (m1 & E1 & Hm1). destruct (HU2 m1) as (m2 & E2 & Hm2).
  exists m2. rewrite E1. split; auto. rewrite Hm2, Hm1. destruct (mget dk m) as [x|]; auto.
  cbn [option_map]. f_equal. destruct x as [| | | | |p]; cbn [sub_value_p]; auto.
  f_equal. rewrite map_map. apply map_ext. intros [n x]. cbn [fst snd]. f_equal.
  unfold try_sub_p. destruct (is_schema x) eqn:Hx; [now rewrite (HT1 x Hx)|now rewrite Hx].
Qed.

Lemma on_defs_definition dk T doc n y : on_defs dk T -> is_obj doc = true ->
  definition dk (T doc) n y <-> exists x, definition dk doc n x /\ y = try_sub_p T x.
Proof.
  intros [HT HD] Hd. destruct doc as [| | | | |m]; try discriminate.
  destruct (HD m) as (m' & E1 & Hm'). unfold definition. rewrite E1. split.
  - intros (m1 & p & [= <-] & Hp & Hn). rewrite Hm' in Hp.
    destruct (mget dk m) as [[| | | | |q]|] eqn:Hq; try discriminate. cbn in Hp. injection Hp as <-.
    rewrite (mget_map (fun _ => try_sub_p T)) in Hn.
    destruct (mget n q) as [x|] eqn:Hx; [|discriminate]. injection Hn as <-.
    exists x. split; auto. exists m, q. auto.
  - intros (x & (m1 & q & [= <-] & Hq & Hx) & ->).
    exists m', (map (fun kv => (fst kv, try_sub_p T (snd kv))) q). split; auto.
    rewrite Hm', Hq. split; [reflexivity|].
    now rewrite (mget_map (fun _ => try_sub_p T)), Hx.
Qed.

Lemma on_defs_const dk : In dk kw_map -> on_defs dk replace_const.
Proof.
  intros H. apply (post_on_defs dk replace_const_here); [now apply in_kwmap|apply here_schema_const|].
  intros m. cbn. destruct (mget "const" m); eexists; (split; [reflexivity|]); auto.
  rewrite mget_mset, mget_mdel. in_cases H; reflexivity.
Qed.
Lemma on_defs_ref dk : In dk kw_map -> on_defs dk remove_ref_siblings.
Proof.
  intros H. apply (post_on_defs dk remove_ref_siblings_here); [now apply in_kwmap|apply here_schema_ref|].
  intros m. destruct (ref_here_lookups m) as (m' & -> & HL & _). exists m'. split; auto.
  apply HL; in_cases H; discriminate.
Qed.
Lemma on_defs_prefix dk : In dk kw_map -> on_defs dk replace_prefix_items.
Proof.
  intros H. apply (post_on_defs dk replace_prefix_here); [now apply in_kwmap|apply here_schema_prefix|].
  intros m. cbn [replace_prefix_here]. destruct (mget "prefixItems" m); [|eauto].
  destruct (mget "items" (mdel "prefixItems" m)); eexists; (split; [reflexivity|]);
    repeat (first [rewrite mget_mset | rewrite mget_mdel]); in_cases H; reflexivity.
Qed.
Lemma on_defs_example dk : In dk kw_map -> on_defs dk set_single_example.
Proof.
  intros H. apply (post_on_defs dk set_single_example_here); [now apply in_kwmap|apply here_schema_example|].
  intros m. cbn [set_single_example_here]. destruct (mget "examples" m) as [[| | | |[]|]|]; eexists; (split; [reflexivity|]);
    repeat (first [rewrite mget_mset | rewrite mget_mdel]); in_cases H; reflexivity.
Qed.
Lemma on_defs_uneval dk : In dk ["$defs"; "definitions"] -> on_defs dk replace_uneval.
Proof.
  intros H. apply (post_on_defs dk replace_uneval_here); [apply in_kwmap; in_cases H; in_names|apply here_schema_uneval|].
  intros m. destruct (uneval_here_lookups m) as (m' & -> & HL). exists m'. split; auto.
  apply HL. in_cases H; cbn; intuition discriminate.
Qed.
Lemma on_defs_bool skip dk : In dk kw_map -> on_defs dk (replace_bool skip).
Proof.
  intros H. split; [apply replace_bool_schema|]. intros m. rewrite replace_bool_unfold.
  assert (Hk : shape_of dk = Named) by now apply in_kwmap.
  assert (Ha : String.eqb dk "additionalProperties" = false) by (in_cases H; reflexivity).
  unfold replace_bool_body. destruct (if skip then _ else _) as [ap|].
  - exists (mset "additionalProperties" ap (tmap (replace_bool skip) (mdel "additionalProperties" m))).
    split; [reflexivity|]. now rewrite mget_mset, Ha, mget_tmap, Hk, mget_mdel, Ha.
  - exists (tmap (replace_bool skip) m). split; [reflexivity|]. now rewrite mget_tmap, Hk.
Qed.
Lemma add_nullable_here_get rm ac m k : ~ In k ["nullable"; "type"; "const"] ->
  exists m', add_nullable_here rm ac (JObj m) = JObj m' /\ mget k m' = mget k m.
Proof.
  intros Hk. cbn [add_nullable_here].
  assert (H1 : String.eqb k "nullable" = false) by (apply String.eqb_neq; intros ->; apply Hk; in_names).
  assert (H2 : String.eqb k "type" = false) by (apply String.eqb_neq; intros ->; apply Hk; in_names).
  assert (H3 : String.eqb k "const" = false) by (apply String.eqb_neq; intros ->; apply Hk; in_names).
  destruct (has_type "null" (JObj m)); [|eauto].
  destruct (mget "type" (mset "nullable" (JBool true) m)) as [ty|].
  2:{ eexists; split; [reflexivity|]. now rewrite mget_mset, H1. }
  assert (HG : forall m', (exists m1, JObj m' = JObj m1 /\ mget k m1 = mget k m) <-> mget k m' = mget k m).
  { intros m'. split; [intros (m1 & [= ->] & H)|]; eauto. }
  destruct (match ty with JArr l => forallb is_null_name l | _ => true end).
  - destruct ac, rm; apply HG; repeat (first [rewrite mget_mset | rewrite mget_mdel]); now rewrite ?H1, ?H2, ?H3.
  - destruct rm.
    + destruct ty as [| | | |l|]; try (apply HG; now rewrite mget_mset, H1).
      destruct (filter (fun t => negb (is_null_name t)) l) as [|t1 [|]]; apply HG;
        rewrite !mget_mset; now rewrite ?H1, ?H2.
    + apply HG. now rewrite mget_mset, H1.
Qed.
Lemma on_defs_nullable rm ac dk : In dk kw_map -> on_defs dk (add_nullable rm ac).
Proof.
  intros H. split; [apply add_nullable_schema|]. intros m. rewrite add_nullable_unfold.
  assert (Hk : shape_of dk = Named) by now apply in_kwmap.
  destruct (add_nullable_here_get rm ac m dk) as (m' & -> & Hm'); [in_cases H; cbn; intuition discriminate|].
  exists (tmap (add_nullable rm ac) m'). split; [reflexivity|]. now rewrite mget_tmap, Hk, Hm'.
Qed.

Lemma on_defs_draft07 dk : In dk ["$defs"; "definitions"] -> on_defs dk draft07_transforms.
Proof.
  intros H. assert (H' : In dk kw_map) by (in_cases H; in_names). unfold draft07_transforms.
  apply (on_defs_comp dk (fun s => remove_ref_siblings (replace_uneval s)) replace_prefix_items);
    [|now apply on_defs_prefix].
  apply (on_defs_comp dk replace_uneval remove_ref_siblings); [now apply on_defs_uneval|now apply on_defs_ref].
Qed.
Lemma on_defs_draft2019 dk : In dk ["$defs"; "definitions"] -> on_defs dk draft2019_transforms.
Proof. intros H. apply on_defs_prefix. in_cases H; in_names. Qed.
Lemma on_defs_openapi3 dk : In dk ["$defs"; "definitions"] -> on_defs dk openapi3_transforms.
Proof.
  intros H. assert (H' : In dk kw_map) by (in_cases H; in_names). unfold openapi3_transforms.
  apply (on_defs_comp dk (fun s => replace_const (set_single_example (remove_ref_siblings (add_nullable true true (replace_bool true (replace_uneval s)))))) replace_prefix_items); [|now apply on_defs_prefix].
  apply (on_defs_comp dk (fun s => set_single_example (remove_ref_siblings (add_nullable true true (replace_bool true (replace_uneval s))))) replace_const); [|now apply on_defs_const].
  apply (on_defs_comp dk (fun s => remove_ref_siblings (add_nullable true true (replace_bool true (replace_uneval s)))) set_single_example); [|now apply on_defs_example].
  apply (on_defs_comp dk (fun s => add_nullable true true (replace_bool true (replace_uneval s))) remove_ref_siblings); [|now apply on_defs_ref].
  apply (on_defs_comp dk (fun s => replace_bool true (replace_uneval s)) (add_nullable true true)); [|now apply on_defs_nullable].
  apply (on_defs_comp dk replace_uneval (replace_bool true)); [now apply on_defs_uneval|now apply on_defs_bool].
Qed.

(** An environment reads the original document's references for [d] exactly when it reads the
    transformed document's references for [d']. *)
Lemma interprets_iff (d d' : dialect) E dk T (P : map_t -> Prop) ref doc :
  In dk ["$defs"; "definitions"] -> on_defs dk T ->
  (forall s, everywhere P s -> feq (eval d' E (T s)) (eval d E s)) ->
  is_obj doc = true -> everywhere P doc ->
  interprets d' E dk ref (T doc) <-> interprets d E dk ref doc.
Proof.
  intros Hk HT HS Ho HP.
  assert (HD : forall n x, definition dk doc n x -> feq (eval d' E (try_sub_p T x)) (eval d E x)).
  { intros n x (m & p & -> & Hp & Hx). unfold try_sub_p. destruct (is_schema x) eqn:Hs; [|now apply eval_nonschema].
    apply HS. apply everywhere_inv in HP as [_ HP]. apply HP. apply mget_In in Hp. apply mget_In in Hx.
    eapply (ds_map m dk); eauto. in_cases Hk; in_names. }
  split; intros HI n x Hx.
  - eapply feq_trans; [|apply (HD n x Hx)]. apply HI. apply on_defs_definition; eauto.
  - apply on_defs_definition in Hx as (x0 & Hx0 & ->); auto.
    eapply feq_trans; [apply HI; exact Hx0|]. apply feq_sym. eauto.
Qed.
