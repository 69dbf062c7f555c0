(** ReplaceUnevaluatedProperties: what was accepted stays accepted. *)
From Coq Require Import String Ascii List ZArith Bool Lia.
From Verif Require Import Json JsonFacts SchemaApi Validate ValidateFacts Transform TransformSpec
  TransformProofs TransformSem.
Import ListNotations.
Open Scope string_scope.

(** ** Specification vocabulary *)
(** [x] applies to the same instance as [m] itself. *)
Inductive in_place (m : map_t) : json -> Prop :=
| ip_one k x : In k ["if"; "then"; "else"] -> In (k, x) m -> is_schema x = true -> in_place m x
| ip_list k l x : In k ["allOf"; "anyOf"; "oneOf"] -> In (k, JArr l) m -> In x l ->
    is_schema x = true -> in_place m x.

Definition absent (ks : list string) (m : map_t) : Prop := forall k, In k ks -> mget k m = None.

(** The properties that [s] evaluates are named literally by "properties" in [s] or in-place below
    it. *)
Inductive closed : json -> Prop :=
| closed_leaf s : is_obj s = false -> closed s
| closed_obj m :
    absent ["$ref"; "patternProperties"; "additionalProperties"; "unevaluatedProperties";
            "dependentSchemas"] m ->
    (forall x, in_place m x -> closed x) -> closed (JObj m).

(** If [m] has "unevaluatedProperties": its in-place subschemas are [closed], it has no "$ref",
    "additionalProperties" or "dependentSchemas" of its own, and "properties" is well formed. *)
Definition uneval_ok (m : map_t) : Prop :=
  mget "unevaluatedProperties" m <> None ->
  absent ["$ref"; "additionalProperties"; "dependentSchemas"] m
  /\ match mget "properties" m with None => True | Some (JObj _) => True | _ => False end
  /\ forall x, in_place m x -> closed x.

Definition no_uneval (m : map_t) : Prop := mget "unevaluatedProperties" m = None.

(** Subschemas under oneOf, not and if. *)
Inductive exact_sub (m : map_t) : json -> Prop :=
| es_one k x : In k ["not"; "if"] -> In (k, x) m -> exact_sub m x
| es_list l x : In ("oneOf", JArr l) m -> In x l -> exact_sub m x.

(** "unevaluatedProperties" occurs only where accepting more makes the whole accept more. *)
Inductive positive : json -> Prop :=
| pos_leaf s : is_obj s = false -> positive s
| pos_obj m :
    uneval_ok m ->
    (forall x, exact_sub m x -> everywhere no_uneval x) ->
    (forall x, direct_sub m x -> positive x) ->
    positive (JObj m).

(** ** Traversal facts *)
Notation T := replace_uneval.

Lemma T_obj m : T (JObj m) = replace_uneval_here (JObj (tmap T m)).
Proof. apply (post_obj replace_uneval_here). Qed.
Lemma T_leaf s : is_obj s = false -> T s = s.
Proof.
  intros H. unfold T. change (post replace_uneval_here s = s).
  rewrite (post_leaf replace_uneval_here) by auto. now destruct s.
Qed.
Lemma here_schema_uneval s : is_schema s = true -> is_schema (replace_uneval_here s) = true.
Proof.
  destruct s; try discriminate; auto. cbn [replace_uneval_here]. intros _.
  destruct (mget "unevaluatedProperties" m); auto.
  destruct (gather_names _); auto. destruct (mget "properties" _) as [[]|]; auto.
Qed.
Lemma T_schema s : is_schema s = true -> is_schema (T s) = true.
Proof. apply (post_schema replace_uneval_here), here_schema_uneval. Qed.

Lemma T_same s : everywhere no_uneval s -> T s = s.
Proof.
  induction 1 as [s Hs|m Hm _ IH]; [now apply T_leaf|].
  rewrite T_obj, (tmap_id T m IH). cbn [replace_uneval_here]. now rewrite Hm.
Qed.

Lemma in_place_direct m x : in_place m x -> direct_sub m x.
Proof.
  intros [k y Hk Hin Hs|k l y Hk Hin Hl Hs].
  - eapply ds_one; eauto. in_cases Hk; in_names.
  - eapply ds_list; eauto. in_cases Hk; in_names.
Qed.

(** ** Gathered names *)
Definition imm_names (kv : string * json) : list string :=
  match immediate_shape (fst kv) with
  | One => if is_schema (snd kv) then gather_names (snd kv) else []
  | Many =>
      match snd kv with
      | JArr l => flat_map (fun x => if is_schema x then gather_names x else []) l
      | _ => []
      end
  | _ => []
  end.
Lemma gather_obj m : gather_names (JObj m) =
  ((match mget "properties" m with Some (JObj p) => map fst p | _ => [] end) ++ flat_map imm_names m)%list.
Proof. reflexivity. Qed.

Lemma imm_one k : immediate_shape k = One <-> In k ["if"; "then"; "else"].
Proof.
  unfold immediate_shape. rewrite <- mem_In. destruct (mem k ["if"; "then"; "else"]); [tauto|].
  destruct (mem k ["allOf"; "anyOf"; "oneOf"]); split; discriminate.
Qed.
Lemma imm_many k : immediate_shape k = Many <-> In k ["allOf"; "anyOf"; "oneOf"].
Proof.
  split.
  - unfold immediate_shape. rewrite <- mem_In. destruct (mem k ["if"; "then"; "else"]); [discriminate|].
    destruct (mem k ["allOf"; "anyOf"; "oneOf"]); [reflexivity|discriminate].
  - intros H. in_cases H; reflexivity.
Qed.

Lemma gather_in_place m x n : in_place m x -> In n (gather_names x) -> In n (gather_names (JObj m)).
Proof.
  intros Hx Hn. rewrite gather_obj. apply in_or_app. right. apply in_flat_map.
  destruct Hx as [k y Hk Hin Hs|k l y Hk Hin Hl Hs].
  - exists (k, y). split; auto. unfold imm_names; cbn [fst snd].
    rewrite (proj2 (imm_one k) Hk), Hs. exact Hn.
  - exists (k, JArr l). split; auto. unfold imm_names; cbn [fst snd].
    rewrite (proj2 (imm_many k) Hk). apply in_flat_map. exists y. now rewrite Hs.
Qed.

(** Every gathered name of a closed schema survives the transform of its parts. *)
Lemma immediate_shape_shape k : immediate_shape k = One -> shape_of k = One.
Proof. intros H. apply imm_one in H. in_cases H; reflexivity. Qed.
Lemma immediate_shape_many k : immediate_shape k = Many -> shape_of k = Many.
Proof. intros H. apply imm_many in H. in_cases H; reflexivity. Qed.

Lemma gather_tmap t m :
  (forall y, is_schema y = true -> is_schema (t y) = true) ->
  (forall x, in_place m x -> incl (gather_names x) (gather_names (t x))) ->
  incl (gather_names (JObj m)) (gather_names (JObj (tmap t m))).
Proof.
  intros Hs HI n. rewrite !gather_obj, !in_app_iff. intros [H|H].
  - left. rewrite mget_tmap. change (shape_of "properties") with Named.
    destruct (mget "properties" m) as [[| | | | |p]|]; cbn in *; try contradiction.
    now rewrite map_map.
  - right. apply in_flat_map in H as ([k v] & Hin & Hn). apply in_flat_map.
    exists (k, sub_value_p t (shape_of k) v). split.
    { unfold tmap. apply in_map_iff. now exists (k, v). }
    unfold imm_names in *; cbn [fst snd] in *.
    destruct (immediate_shape k) eqn:Ek; try contradiction.
    + rewrite (immediate_shape_shape k Ek). cbn [sub_value_p]. unfold try_sub_p.
      destruct (is_schema v) eqn:Hv; [|contradiction]. rewrite (Hs v Hv).
      apply HI; auto. eapply ip_one; eauto. now apply imm_one.
    + rewrite (immediate_shape_many k Ek). destruct v; try contradiction. cbn [sub_value_p].
      apply in_flat_map in Hn as (x & Hx & Hn). destruct (is_schema x) eqn:Hv; [|contradiction].
      apply in_flat_map. exists (t x). split.
      * apply in_map_iff. exists x. split; auto. unfold try_sub_p. now rewrite Hv.
      * rewrite (Hs x Hv). apply HI; auto. eapply ip_list; eauto. now apply imm_many.
Qed.

Lemma gather_closed s : closed s -> incl (gather_names s) (gather_names (T s)).
Proof.
  induction 1 as [s Hs|m HA _ IH]; [rewrite T_leaf by auto; apply incl_refl|].
  rewrite T_obj. cbn [replace_uneval_here]. rewrite tmap_other by reflexivity.
  rewrite (HA "unevaluatedProperties") by in_names.
  apply gather_tmap; auto using T_schema.
Qed.

(** What a closed schema evaluates is gathered. *)
Section Closed.
Variables (d : dialect) (E : env).

Lemma ev_list_In (m : map_t) k v n :
  ev_list (option_map (sub_of d E) (mget k m)) v n = true ->
  exists l x, In (k, JArr l) m /\ In x l /\ evs (eval d E x v) n = true.
Proof.
  unfold ev_list. destruct (mget k m) as [x|] eqn:Hk; cbn [option_map arr_of sub_of s_arr]; [|discriminate].
  destruct x; try discriminate. intros H. apply existsb_exists in H as (f & Hf & He).
  apply in_map_iff in Hf as (x & <- & Hx). exists l, x. auto using mget_In.
Qed.
Lemma ev_opt_In (m : map_t) k v n :
  ev_opt (option_map (sub_of d E) (mget k m)) v n = true ->
  exists x, In (k, x) m /\ evs (eval d E x v) n = true.
Proof.
  destruct (mget k m) as [x|] eqn:Hk; cbn; [|discriminate]. intros H. exists x. auto using mget_In.
Qed.
Lemma evs_schema x v n : evs (eval d E x v) n = true -> is_schema x = true.
Proof. destruct x; cbn; auto; discriminate. Qed.

(** The properties evaluated through in-place subschemas. *)
Lemma ev_in_place (m : map_t) v n :
  (ev_list (option_map (sub_of d E) (mget "allOf" m)) v n = true
   \/ ev_list (option_map (sub_of d E) (mget "anyOf" m)) v n = true
   \/ ev_list (option_map (sub_of d E) (mget "oneOf" m)) v n = true
   \/ ev_if (when (d_extra d) (option_map (sub_of d E) (mget "if" m)))
           (option_map (sub_of d E) (mget "then" m)) (option_map (sub_of d E) (mget "else" m)) v n = true) ->
  exists x, in_place m x /\ evs (eval d E x v) n = true.
Proof.
  assert (HL : forall k, In k ["allOf"; "anyOf"; "oneOf"] ->
    ev_list (option_map (sub_of d E) (mget k m)) v n = true ->
    exists x, in_place m x /\ evs (eval d E x v) n = true).
  { intros k Hk H. apply ev_list_In in H as (l & x & Hin & Hx & He). exists x. split; auto.
    eapply ip_list; eauto using evs_schema. }
  assert (HO : forall k, In k ["if"; "then"; "else"] ->
    ev_opt (option_map (sub_of d E) (mget k m)) v n = true ->
    exists x, in_place m x /\ evs (eval d E x v) n = true).
  { intros k Hk H. apply ev_opt_In in H as (x & Hin & He). exists x. split; auto.
    eapply ip_one; eauto using evs_schema. }
  intros [H|[H|[H|H]]].
  - apply (HL "allOf"); auto; in_names.
  - apply (HL "anyOf"); auto; in_names.
  - apply (HL "oneOf"); auto; in_names.
  - destruct (d_extra d); [|discriminate]. cbn [when] in H. unfold ev_if in H.
    destruct (mget "if" m) as [i|] eqn:Hi; [|discriminate]. cbn [option_map sub_of s_den] in H.
    destruct (ok (eval d E i v)).
    + apply orb_prop in H as [H|H].
      * apply (HO "if"); [in_names|]. rewrite Hi. exact H.
      * apply (HO "then"); auto; in_names.
    + apply (HO "else"); auto; in_names.
Qed.

Lemma in_props_gather m n : in_props (option_map (sub_of d E) (mget "properties" m)) n = true ->
  In n (gather_names (JObj m)).
Proof.
  rewrite gather_obj. intros H. apply in_or_app. left. unfold in_props in H.
  destruct (mget "properties" m) as [[| | | | |p]|]; cbn in H; try discriminate.
  apply mhas_In in H. rewrite map_map in H. exact H.
Qed.

Lemma closed_ev s : closed s -> forall v n, evs (eval d E s v) n = true -> In n (gather_names s).
Proof.
  induction 1 as [s Hs|m HA _ IH]; intros v n H.
  - destruct s; try discriminate Hs; cbn in H; try discriminate; unfold evs in H; cbn in H.
    rewrite andb_false_r in H. discriminate.
  - unfold evs in H. destruct (eval_JObj d E m v) as [H1 H2]. rewrite H1, H2 in H. clear H1 H2.
    apply andb_prop in H as [_ H]. unfold eval_map, eval_obj in H.
    rewrite (HA "$ref"), (HA "unevaluatedProperties") in H by in_names. cbn [option_map] in H.
    rewrite andb_false_r in H. cbn [ev] in H. apply andb_prop in H as [_ H].
    assert (Hw : is_some (when (d_uneval d) None) = false) by (destruct (d_uneval d); reflexivity).
    rewrite Hw in H. cbn [orb] in H. unfold ev_main in H.
    rewrite (HA "$ref"), (HA "patternProperties"), (HA "additionalProperties"), (HA "dependentSchemas") in H by in_names.
    cbn [option_map is_some ev_ref] in H.
    assert (Hp : in_patterns E (when (d_extra d) None) n = false) by (destruct (d_extra d); reflexivity).
    assert (Hd : ev_dependent (when (d_depend d) None) v n = false).
    { destruct (d_depend d), v; reflexivity. }
    rewrite Hp, Hd, !orb_false_r in H. rewrite !orb_true_iff in H.
    assert (HP : in_props (option_map (sub_of d E) (mget "properties" m)) n = true \/
                 exists x, in_place m x /\ evs (eval d E x v) n = true).
    { destruct H as [[[[H|H]|H]|H]|H]; auto; right; apply ev_in_place; auto. }
    destruct HP as [HP|(x & Hx & He)]; [now apply in_props_gather|].
    eapply gather_in_place; eauto.
Qed.
End Closed.

(** ** Monotonicity of the checks *)
Definition fle (f g : json -> result) : Prop := forall v, ok (f v) = true -> ok (g v) = true.
Definition den_le (o o' : option sub) : Prop := orel (fun a b => fle (s_den a) (s_den b)) o o'.
Definition arr_le (o o' : option sub) : Prop := orel (Forall2 fle) (arr_of o) (arr_of o').
Definition fle_kv (p q : string * (json -> result)) : Prop := fst p = fst q /\ fle (snd p) (snd q).
Definition obj_le (o o' : option sub) : Prop := orel (Forall2 fle_kv) (obj_of o) (obj_of o').

Lemma forallb_le {A} (R : A -> A -> Prop) (p q : A -> bool) l l' :
  Forall2 R l l' -> (forall a b, R a b -> p a = true -> q b = true) ->
  forallb p l = true -> forallb q l' = true.
Proof.
  intros HF H; induction HF as [|a b l l' Hab _ IH]; cbn; [auto|]. rewrite !andb_true_iff.
  intros [H1 H2]. split; eauto.
Qed.
Lemma existsb_le {A} (R : A -> A -> Prop) (p q : A -> bool) l l' :
  Forall2 R l l' -> (forall a b, R a b -> p a = true -> q b = true) ->
  existsb p l = true -> existsb q l' = true.
Proof.
  intros HF H; induction HF as [|a b l l' Hab _ IH]; cbn; [auto|]. rewrite !orb_true_iff.
  intros [H1|H1]; eauto.
Qed.
Lemma forallb_le1 {A} (p q : A -> bool) l :
  (forall a, In a l -> p a = true -> q a = true) -> forallb p l = true -> forallb q l = true.
Proof. rewrite !forallb_forall. auto. Qed.

Section Mono.
Variables (E : env) (v : json).
Lemma chk_all_le o o' : arr_le o o' -> chk_all o v = true -> chk_all o' v = true.
Proof. intros H. unfold chk_all. destruct H as [|l l' H]; auto. eapply forallb_le; [exact H|]. cbn; auto. Qed.
Lemma chk_any_le o o' : arr_le o o' -> chk_any o v = true -> chk_any o' v = true.
Proof. intros H. unfold chk_any. destruct H as [|l l' H]; auto. eapply existsb_le; [exact H|]. cbn; auto. Qed.
Lemma chk_opt_le o o' : den_le o o' -> chk_opt o v = true -> chk_opt o' v = true.
Proof. intros [|a b H]; cbn; auto. Qed.
Lemma chk_if_le i i' t t' e e' : den_eq i i' -> den_le t t' -> den_le e e' ->
  chk_if i t e v = true -> chk_if i' t' e' v = true.
Proof.
  intros [|a b H] Ht He; cbn; auto. rewrite (feq_ok _ _ v H). destruct (ok (s_den b v)).
  - now apply chk_opt_le.
  - now apply chk_opt_le.
Qed.
Lemma all_ok_le a b l : fle (s_den a) (s_den b) -> all_ok a l = true -> all_ok b l = true.
Proof. intros H. apply forallb_le1. auto. Qed.
Lemma zip_ok_le fs fs' l : Forall2 fle fs fs' -> zip_ok fs l = true -> zip_ok fs' l = true.
Proof.
  intros HF; revert l; induction HF as [|f g fs fs' H _ IH]; intros [|x l]; cbn; auto.
  rewrite !andb_true_iff. intros [H1 H2]. split; auto.
Qed.
Lemma chk_items_le d p p' i i' a a' : arr_le p p' -> den_le i i' -> arr_le i i' -> den_le a a' ->
  chk_items d p i a v = true -> chk_items d p' i' a' v = true.
Proof.
  intros Hp Hi Hi2 Ha; destruct v; cbn [chk_items]; auto. destruct (d_items d).
  - assert (Hz : Forall2 fle (match arr_of p with Some fs => fs | None => [] end)
                   (match arr_of p' with Some fs => fs | None => [] end)).
    { destruct Hp; [constructor|auto]. }
    rewrite !andb_true_iff, <- (F2_length _ _ _ Hz). intros [H1 H2]. split; [eapply zip_ok_le; eauto|].
    destruct Hi as [|x y Hxy]; [auto|]. eapply all_ok_le; eauto.
  - destruct Hi as [|x y Hxy]; [auto|]. unfold arr_le in Hi2; cbn in Hi2.
    destruct Hi2 as [|fs fs' HF]; [now apply all_ok_le|].
    rewrite !andb_true_iff, <- (F2_length _ _ _ HF). intros [H1 H2]. split; [eapply zip_ok_le; eauto|].
    destruct Ha as [|x' y' Hxy']; [auto|]. eapply all_ok_le; eauto.
  - destruct Hi as [|x y Hxy]; [auto|]. now apply all_ok_le.
Qed.
Lemma when_den_le b o o' : den_le o o' -> den_le (when b o) (when b o').
Proof. destruct b; auto; constructor. Qed.
Lemma when_obj_le b o o' : obj_le o o' -> obj_le (when b o) (when b o').
Proof. destruct b; auto; constructor. Qed.
Lemma chk_contains_le o o' : den_le o o' -> chk_contains o v = true -> chk_contains o' v = true.
Proof.
  intros [|a b H]; destruct v; cbn; auto. rewrite !existsb_exists. intros (x & Hx & Hok). eauto.
Qed.
Lemma F2le_mget k fs fs' : Forall2 fle_kv fs fs' -> orel fle (mget k fs) (mget k fs').
Proof.
  induction 1 as [|[a f] [b g] l l' [H1 H2] _ IH]; cbn; [constructor|]. cbn in H1, H2; subst.
  destruct (String.eqb k b); [now constructor|exact IH].
Qed.
Lemma chk_props_le o o' : obj_le o o' -> chk_props o v = true -> chk_props o' v = true.
Proof.
  intros H; unfold chk_props. destruct v; auto. destruct H as [|l l' HF]; [auto|].
  apply forallb_le1; intros [k x] _; cbn.
  destruct (F2le_mget k _ _ HF) as [|f g Hfg]; auto.
Qed.
Lemma chk_patterns_le o o' : obj_le o o' -> chk_patterns E o v = true -> chk_patterns E o' v = true.
Proof.
  intros H; unfold chk_patterns. destruct v; auto. destruct H as [|l l' HF]; [auto|].
  apply forallb_le1; intros [k x] _; cbn [fst snd].
  eapply forallb_le; [exact HF|]. intros a b [-> H2]. rewrite !orb_true_iff. intros [H3|H3]; auto.
Qed.
Lemma in_props_le o o' k : obj_le o o' -> in_props o' k = in_props o k.
Proof.
  intros H; unfold in_props. destruct H as [|l l' HF]; [auto|].
  unfold mhas. destruct (F2le_mget k _ _ HF); auto.
Qed.
Lemma in_patterns_le o o' k : obj_le o o' -> in_patterns E o' k = in_patterns E o k.
Proof.
  intros H; unfold in_patterns. destruct H as [|l l' HF]; [auto|].
  induction HF as [|a b l l' [H1 H2] _ IH]; cbn; [reflexivity|]. now rewrite H1, IH.
Qed.
Lemma chk_additional_le o o' q q' a a' : obj_le o o' -> obj_le q q' -> den_le a a' ->
  chk_additional E o q a v = true -> chk_additional E o' q' a' v = true.
Proof.
  intros Ho Hq [|x y H]; destruct v; cbn; auto.
  apply forallb_le1; intros [k j] _; cbn.
  rewrite (in_props_le _ _ k Ho), (in_patterns_le _ _ k Hq), !orb_true_iff. intros [[H1|H1]|H1]; auto.
Qed.
Lemma chk_names_le o o' : den_le o o' -> chk_names o v = true -> chk_names o' v = true.
Proof. intros [|x y H]; destruct v; cbn; auto. apply forallb_le1; auto. Qed.
End Mono.

(** ** Main theorem *)
(** The dialect with the keyword "unevaluatedProperties" switched on or off. *)
Definition set_uneval (b : bool) (d : dialect) : dialect :=
  {| d_ref_alone := d_ref_alone d; d_items := d_items d; d_uneval := b; d_depend := d_depend d;
     d_const := d_const d; d_nullable := d_nullable d; d_extra := d_extra d |}.

Lemma no_uneval_flag b d E s :
  everywhere (fun m => no_uneval m /\ unvisited_ok d (set_uneval b d) E m) s ->
  feq (eval (set_uneval b d) E s) (eval d E s).
Proof.
  induction 1 as [s Hs|m [HN HU] _ IH]; [now apply eval_leaf|].
  set (d' := set_uneval b d) in *.
  assert (Hid : tmap (fun x => x) m = m) by (apply tmap_id; auto).
  pose proof (tmap_sem d d' E (fun x => x) m (fun y H => H) IH HU) as H. rewrite Hid in H.
  intros v. eapply req_trans; [apply eval_JObj|]. eapply req_trans; [|apply H].
  unfold eval_map, mixed. destruct (d_ref_alone d && has_ref (fun k => mget k m)) eqn:Hr.
  - apply eval_obj_ref; auto.
  - apply eval_obj_req; auto. rewrite HN. cbn [option_map].
    destruct (d_uneval d'), (d_uneval d); constructor.
Qed.

Section TmapLe.
Variables (d d' : dialect) (E : env) (m : map_t).
Hypothesis HT : forall x, direct_sub m x -> fle (eval d E x) (eval d' E (T x)).
Notation Sm := (fun k => option_map (sub_of d E) (mget k m)).
Notation St := (fun k => option_map (sub_of d' E) (mget k (tmap T m))).

Lemma try_le x : (is_schema x = true -> direct_sub m x) -> fle (eval d E x) (eval d' E (try_sub_p T x)).
Proof.
  intros H. unfold try_sub_p. destruct (is_schema x) eqn:Hs; auto. intros v.
  now rewrite (proj1 (eval_nonschema d d' E x Hs v)).
Qed.
Lemma le_one k : In k kw_one -> shape_of k = One -> den_le (Sm k) (St k).
Proof.
  intros Hk Hs. cbv beta; rewrite mget_tmap, Hs. destruct (mget k m) as [x|] eqn:Hm; constructor.
  apply try_le. intros Hx. eapply ds_one; eauto using mget_In.
Qed.
Lemma le_items : den_le (Sm "items") (St "items").
Proof.
  cbv beta; rewrite mget_tmap. change (shape_of "items") with OneOrMany.
  destruct (mget "items" m) as [x|] eqn:Hm; constructor. cbn [sub_of s_den].
  assert (H : fle (eval d E x) (eval d' E (try_sub_p T x))).
  { apply try_le. intros Hx. apply (ds_one m "items"); auto using mget_In. in_names. }
  destruct x; exact H.
Qed.
Lemma map_le l : (forall x, In x l -> is_schema x = true -> direct_sub m x) ->
  Forall2 fle (map (eval d E) l) (map (eval d' E) (map (try_sub_p T) l)).
Proof.
  induction l as [|x l IH]; intros H; cbn [map]; constructor.
  - apply try_le. intros; apply H; cbn; auto.
  - apply IH. intros; apply H; cbn; auto.
Qed.
Lemma le_arr k : In k kw_list -> arr_le (Sm k) (St k).
Proof.
  intros Hk. cbv beta; rewrite mget_tmap. destruct (mget k m) as [x|] eqn:Hm; [|constructor].
  unfold arr_le; cbn [option_map arr_of sub_of s_arr].
  assert (HA : forall l, x = JArr l -> Forall2 fle (map (eval d E) l) (map (eval d' E) (map (try_sub_p T) l))).
  { intros l ->. apply map_le. intros y Hy Hs. eapply ds_list; eauto using mget_In. }
  pose proof (proj1 (in_list k) Hk) as [Hs|Hs]; rewrite Hs; cbn [sub_value_p].
  - destruct x; constructor. auto.
  - assert (Hna : forall u, is_schema u = true ->
      match T u with JArr l => Some (map (eval d' E) l) | _ => None end = None).
    { intros u Hu. apply T_schema in Hu. destruct (T u); auto; discriminate. }
    destruct x; try (unfold try_sub_p; cbn [is_schema]; rewrite ?Hna by reflexivity); constructor.
    auto.
Qed.
Lemma le_obj k : In k kw_map -> obj_le (Sm k) (St k).
Proof.
  intros Hk. cbv beta; rewrite mget_tmap. destruct (mget k m) as [x|] eqn:Hm; [|constructor].
  unfold obj_le; cbn [option_map obj_of sub_of s_obj].
  rewrite (proj1 (in_kwmap k) Hk). cbn [sub_value_p].
  destruct x as [| | | | |p]; constructor.
  assert (H : forall n y, In (n, y) p -> is_schema y = true -> direct_sub m y).
  { intros n y Hy Hsy. eapply ds_map; eauto using mget_In. }
  clear Hm. induction p as [|[n y] p IH]; cbn [map fst snd]; constructor.
  - split; cbn [fst snd]; [reflexivity|]. apply try_le. eapply H; now left.
  - apply IH. intros n' y' Hy. eapply H. right; eauto.
Qed.

Hypothesis HX : forall x, exact_sub m x -> everywhere no_uneval x.
Hypothesis HE : forall x, exact_sub m x -> is_schema x = true -> feq (eval d E x) (eval d' E x).
Lemma try_exact x : exact_sub m x -> feq (eval d E x) (eval d' E (try_sub_p T x)).
Proof.
  intros Hx. unfold try_sub_p. destruct (is_schema x) eqn:Hs.
  - rewrite T_same by auto. auto.
  - apply feq_sym. now apply eval_nonschema.
Qed.
Lemma exact_one k : In k ["not"; "if"] -> den_eq (Sm k) (St k).
Proof.
  intros Hk. cbv beta; rewrite mget_tmap. assert (Hs : shape_of k = One) by (in_cases Hk; reflexivity).
  rewrite Hs. destruct (mget k m) as [x|] eqn:Hm; constructor. cbn [sub_of s_den sub_value_p].
  apply try_exact. eapply es_one; eauto using mget_In.
Qed.
Lemma exact_oneOf : arr_eq (Sm "oneOf") (St "oneOf").
Proof.
  cbv beta; rewrite mget_tmap. change (shape_of "oneOf") with Many.
  destruct (mget "oneOf" m) as [[| | | |l|]|] eqn:Hm; try constructor. cbn [sub_of s_arr].
  assert (H : forall x, In x l -> exact_sub m x) by (intros x Hx; eapply es_list; eauto using mget_In).
  clear Hm. induction l as [|x l IH]; cbn [map]; constructor.
  - apply try_exact, H. now left.
  - apply IH. intros; apply H; now right.
Qed.
End TmapLe.

Lemma or_insert_get names p n :
  mget n (or_insert_true names p) =
  match mget n p with
  | Some x => Some x
  | None => if mem n names then Some (JBool true) else None
  end.
Proof.
  unfold or_insert_true. revert p. induction names as [|a names IH]; intros p; cbn [fold_left].
  - now destruct (mget n p).
  - rewrite IH. cbn [mem existsb]. change (existsb (String.eqb n) names) with (mem n names).
    unfold mhas. destruct (mget a p) as [x|] eqn:Ha.
    + destruct (String.eqb_spec n a); [|reflexivity]. subst. now rewrite Ha.
    + rewrite mget_mset. destruct (String.eqb_spec n a); [|reflexivity].
      subst. now rewrite Ha.
Qed.

Lemma positive_inv m : positive (JObj m) ->
  uneval_ok m /\ (forall x, exact_sub m x -> everywhere no_uneval x) /\ (forall x, direct_sub m x -> positive x).
Proof. intros H. inversion H as [s Hs|m0 H1 H2 H3]; subst; [discriminate|auto]. Qed.

Lemma mset_keep {A} k k' (x y : A) m : k' <> k -> In (k', x) m -> In (k', x) (mset k y m).
Proof.
  intros Hk. induction m as [|[a z] m IH]; [contradiction|]. cbn [mset].
  destruct (String.compare k a) eqn:Hc; intros Hin.
  - apply scmp_eq in Hc. subst a. destruct Hin as [Heq|Hin]; [congruence|]. now right.
  - now right.
  - destruct Hin as [Heq|Hin]; [now left|right; auto].
Qed.
Lemma mdel_keep {A} k k' (x : A) m : k' <> k -> In (k', x) m -> In (k', x) (mdel k m).
Proof.
  intros Hk. induction m as [|[a z] m IH]; [contradiction|]. cbn [mdel].
  destruct (String.eqb_spec k a); intros Hin.
  - subst. destruct Hin as [Heq|Hin]; [congruence|auto].
  - destruct Hin as [Heq|Hin]; [now left|right; auto].
Qed.

Ltac splitb H := repeat (let H' := fresh "C" in apply andb_prop in H as [H H']).

(** The schema object that replaces one with "unevaluatedProperties": U. *)
Lemma here_shape (m : map_t) U :
  mget "unevaluatedProperties" m = Some U ->
  match mget "properties" m with None => True | Some (JObj _) => True | _ => False end ->
  exists m2 names, replace_uneval_here (JObj m) = JObj m2
    /\ incl (gather_names (JObj m)) names
    /\ (forall k, k <> "properties" -> k <> "additionalProperties" -> k <> "unevaluatedProperties" ->
          mget k m2 = mget k m)
    /\ mget "unevaluatedProperties" m2 = None
    /\ mget "additionalProperties" m2 = Some U
    /\ ((names = [] /\ mget "properties" m2 = mget "properties" m)
        \/ exists p, mget "properties" m2 = Some (JObj (or_insert_true names p))
             /\ match mget "properties" m with None => p = [] | Some x => x = JObj p end).
Proof.
  intros HU Hps. cbn [replace_uneval_here]. rewrite HU.
  set (m1 := mset "additionalProperties" U (mdel "unevaluatedProperties" m)).
  set (names := gather_names (JObj m1)).
  assert (Hm1 : forall k, k <> "additionalProperties" -> k <> "unevaluatedProperties" ->
          mget k m1 = mget k m).
  { intros k H1 H2. unfold m1. rewrite mget_mset, mget_mdel.
    now rewrite (proj2 (String.eqb_neq _ _) H1), (proj2 (String.eqb_neq _ _) H2). }
  assert (Hu1 : mget "unevaluatedProperties" m1 = None) by (unfold m1; now rewrite mget_mset, mget_mdel).
  assert (Ha1 : mget "additionalProperties" m1 = Some U) by (unfold m1; now rewrite mget_mset).
  assert (Hp1 : mget "properties" m1 = mget "properties" m) by (apply Hm1; discriminate).
  assert (HG : incl (gather_names (JObj m)) names).
  { intros z. unfold names. rewrite !gather_obj, !in_app_iff, Hp1. intros [Hz|Hz]; [now left|right].
    apply in_flat_map in Hz as ([k x] & Hin & Hz). apply in_flat_map.
    exists (k, x). split; [|exact Hz].
    apply mset_keep; [intros ->; cbn in Hz; contradiction|].
    apply mdel_keep; [intros ->; cbn in Hz; contradiction|exact Hin]. }
  cbv zeta. rewrite Hp1. fold names.
  assert (Hset : forall p, let m2 := mset "properties" (JObj (or_insert_true names p)) m1 in
    (forall k, k <> "properties" -> k <> "additionalProperties" -> k <> "unevaluatedProperties" ->
          mget k m2 = mget k m)
    /\ mget "unevaluatedProperties" m2 = None
    /\ mget "additionalProperties" m2 = Some U
    /\ mget "properties" m2 = Some (JObj (or_insert_true names p))).
  { intros p m2. unfold m2. repeat split.
    - intros k H1 H2 H3. rewrite mget_mset, (proj2 (String.eqb_neq _ _) H1). auto.
    - rewrite mget_mset. exact Hu1.
    - rewrite mget_mset. exact Ha1.
    - now rewrite mget_mset_eq. }
  destruct names as [|n0 names0] eqn:Hn.
  { exists m1, []. repeat split; auto. }
  rewrite <- Hn in *.
  destruct (mget "properties" m) as [[| | | | |p]|] eqn:Hp; try contradiction.
  - destruct (Hset p) as (H1 & H2 & H3 & H4).
    exists (mset "properties" (JObj (or_insert_true names p)) m1), names. repeat split; auto.
    right. eauto.
  - destruct (Hset []) as (H1 & H2 & H3 & H4).
    exists (mset "properties" (JObj (or_insert_true names [])) m1), names. repeat split; auto.
    right. eauto.
Qed.

Lemma exact_direct m x : exact_sub m x -> is_schema x = true -> direct_sub m x.
Proof.
  intros [k y Hk Hin|l y Hin Hl] Hs.
  - eapply ds_one; eauto. in_cases Hk; in_names.
  - eapply ds_list; eauto. in_names.
Qed.

Theorem replace_uneval_mono d b E s : d_uneval d = true -> positive s ->
  everywhere (unvisited_ok d (set_uneval b d) E) s ->
  fle (eval d E s) (eval (set_uneval b d) E (T s)).
Proof.
  intros Hdu. set (d' := set_uneval b d). revert s. refine (direct_ind _ _ _).
  { intros s Hs _ _. rewrite T_leaf by auto. intros v. now rewrite (proj1 (eval_leaf d d' E s Hs v)). }
  intros m IH HP HV. apply positive_inv in HP as (HO & HX & HD).
  apply everywhere_inv in HV as [[HV1 HV2] HV].
  assert (HT : forall x, direct_sub m x -> fle (eval d E x) (eval d' E (T x))) by auto.
  assert (HE : forall x, exact_sub m x -> is_schema x = true -> feq (eval d E x) (eval d' E x)).
  { intros x Hx Hs. apply feq_sym, no_uneval_flag. apply everywhere_and; auto.
    apply HV. now apply exact_direct. }
  intros v. rewrite (proj1 (eval_JObj d E m v)). rewrite T_obj.
  pose proof (le_one d d' E m HT) as L1. pose proof (le_arr d d' E m HT) as LA.
  pose proof (le_obj d d' E m HT) as LO. pose proof (le_items d d' E m HT) as LI.
  pose proof (exact_one d d' E m HX HE) as X1. pose proof (exact_oneOf d d' E m HX HE) as XO.
  assert (HDep : obj_eq (option_map (sub_of d E) (mget "dependentSchemas" m))
                        (option_map (sub_of d' E) (mget "dependentSchemas" m))).
  { destruct (mget "dependentSchemas" m) as [[| | | | |p]|] eqn:Hp; try constructor.
    cbn [sub_of s_obj]. assert (H : forall n x, In (n, x) p -> feq (eval d' E x) (eval d E x)) by eauto.
    clear -H. induction p as [|[n y] p IH]; cbn [map fst snd]; constructor.
    - split; [reflexivity|]. apply feq_sym. eapply H; now left.
    - apply IH. intros n' y' Hy. eapply H. right; eauto. }
  assert (HPat : obj_le (when (d_extra d) (option_map (sub_of d E) (mget "patternProperties" m)))
             (when (d_extra d) (option_map (sub_of d' E) (mget "patternProperties" (tmap T m))))).
  { apply when_obj_le, LO; in_names. }
  destruct (mget "unevaluatedProperties" m) as [U|] eqn:HU.
  - (* the keyword is present *)
    destruct (HO ltac:(rewrite HU; discriminate)) as (HA & HPr & HC).
    destruct (here_shape (tmap T m) U) as (m2 & names & -> & HG & HF & Hu2 & Ha2 & Hp2).
    { rewrite tmap_other by reflexivity. exact HU. }
    { rewrite mget_tmap. destruct (mget "properties" m) as [[]|]; auto. }
    rewrite (proj1 (eval_JObj d' E m2 v)).
    unfold eval_map, eval_obj. rewrite (HF "$ref") by discriminate. rewrite tmap_other by reflexivity.
    rewrite (HA "$ref") by in_names.
    rewrite !andb_false_r. rewrite HU, Hu2, Hdu. cbn [option_map ok when].
    intros H. apply andb_prop in H as [H CU].
    (* names cover what was evaluated *)
    assert (Hcov : forall n, ev_main d E (fun k => mget k m) (fun k => option_map (sub_of d E) (mget k m)) v n = true ->
      in_props (option_map (sub_of d' E) (mget "properties" m2)) n = true
      \/ in_patterns E (when (d_extra d) (option_map (sub_of d E) (mget "patternProperties" m))) n = true).
    { intros n Hn. unfold ev_main in Hn.
      rewrite (HA "$ref"), (HA "additionalProperties"), (HA "dependentSchemas") in Hn by in_names.
      cbn [option_map is_some ev_ref] in Hn.
      assert (Hdep : ev_dependent (when (d_depend d) None) v n = false) by (destruct (d_depend d), v; reflexivity).
      rewrite Hdep, !orb_false_r, !orb_true_iff in Hn.
      assert (Hcase : in_patterns E (when (d_extra d) (option_map (sub_of d E) (mget "patternProperties" m))) n = true
         \/ In n (gather_names (JObj m))).
      { assert (HI : (exists x, in_place m x /\ evs (eval d E x v) n = true) -> In n (gather_names (JObj m))).
        { intros (x & Hx & He). eapply gather_in_place; eauto. eapply closed_ev; eauto. }
        destruct Hn as [[[[[Hn|Hn]|Hn]|Hn]|Hn]|Hn].
        - right. eapply in_props_gather; eauto.
        - left. exact Hn.
        - right. apply HI, ev_in_place. eauto.
        - right. apply HI, ev_in_place. eauto.
        - right. apply HI, ev_in_place. eauto.
        - right. apply HI, ev_in_place. eauto. }
      destruct Hcase as [Hc|Hc]; [now right|left].
      assert (Hnm : In n names).
      { apply HG. apply (gather_tmap T m T_schema); auto. intros x Hx. apply gather_closed; auto. }
      unfold in_props. destruct Hp2 as [[Hne _]|(p & Hp2 & _)]; [rewrite Hne in Hnm; contradiction|].
      rewrite Hp2. cbn [option_map obj_of sub_of s_obj]. unfold mhas.
      rewrite (mget_map (fun _ => eval d' E) n (or_insert_true names p)), or_insert_get.
      rewrite (proj2 (mem_In n names) Hnm). now destruct (mget n p). }
    unfold chk_main in *. splitb H.
    rewrite (HF "type"), (HF "nullable"), (HF "enum"), (HF "const"), (HF "allOf"),
      (HF "anyOf"), (HF "oneOf"), (HF "not"), (HF "if"), (HF "then"), (HF "else"), (HF "prefixItems"),
      (HF "items"), (HF "additionalItems"), (HF "contains"), (HF "patternProperties"),
      (HF "propertyNames"), (HF "dependentSchemas"), (HF "$ref") by discriminate.
    rewrite !tmap_data by in_names. rewrite (HA "$ref") by in_names.
    rewrite (assertions_ext E (fun k => mget k m2) (fun k => mget k m)).
    2:{ intros k Hk. rewrite HF by (in_cases Hk; discriminate). apply tmap_data. unfold data_names. cbn [In]. tauto. }
    repeat match goal with |- (_ && _) = true => apply andb_true_intro; split end; auto.
    + eapply chk_all_le; [apply LA; in_names|assumption].
    + eapply chk_any_le; [apply LA; in_names|assumption].
    + rewrite <- (chk_one_eq v _ _ XO). assumption.
    + rewrite <- (chk_not_eq v _ _ (X1 "not" ltac:(in_names))). assumption.
    + eapply chk_if_le; [| | |eassumption].
      * apply when_den. apply X1; in_names.
      * apply L1; [in_names|reflexivity].
      * apply L1; [in_names|reflexivity].
    + eapply (chk_items_le v d); [| | | |eassumption]; try (solve [apply LA; in_names]); try exact LI.
      apply L1; [in_names|reflexivity].
    + eapply chk_contains_le; [|eassumption]. apply when_den_le, L1; [in_names|reflexivity].
    + (* properties *)
      assert (CP : chk_props (option_map (sub_of d' E) (mget "properties" (tmap T m))) v = true).
      { eapply chk_props_le; [|eassumption]. apply LO; in_names. }
      destruct Hp2 as [[_ Hp2]|(p & Hp2 & Hpp)]; rewrite Hp2; [exact CP|].
      unfold chk_props in *. destruct v as [| | | | |iv]; auto.
      cbn [option_map obj_of sub_of s_obj]. rewrite forallb_forall. intros [n x] Hin. cbn [fst snd].
      rewrite (mget_map (fun _ => eval d' E) n (or_insert_true names p)), or_insert_get.
      destruct (mget "properties" (tmap T m)) as [pp|]; subst.
      * cbn [option_map obj_of sub_of s_obj] in CP. rewrite forallb_forall in CP.
        specialize (CP _ Hin). cbn [fst snd] in CP.
        rewrite (mget_map (fun _ => eval d' E) n p) in CP.
        destruct (mget n p); cbn [option_map] in *; [exact CP|]. now destruct (mem n names).
      * cbn [mget]. now destruct (mem n names).
    + eapply chk_patterns_le; [|eassumption]. exact HPat.
    + (* additionalProperties *)
      rewrite Ha2. unfold chk_additional. destruct v as [| | | | |iv]; auto. cbn [option_map].
      rewrite forallb_forall. intros [n x] Hin. cbn [fst snd].
      change (d_extra d') with (d_extra d).
      rewrite (in_patterns_le E _ _ n HPat).
      cbn [chk_uneval] in CU. rewrite forallb_forall in CU. specialize (CU _ Hin).
      cbn [fst snd] in CU. apply orb_prop in CU as [CU|CU].
      * destruct (Hcov n CU) as [-> | ->]; rewrite ?orb_true_r; reflexivity.
      * cbn [sub_of s_den] in *. rewrite (proj1 (HV1 U eq_refl x)), CU. now rewrite orb_true_r.
    + eapply chk_names_le; [|eassumption]. apply when_den_le, L1; [in_names|reflexivity].
    + rewrite tmap_other by reflexivity.
      change (d_depend d') with (d_depend d). rewrite <- (chk_dependent_eq v _ _ (when_obj (d_depend d) _ _ HDep)). assumption.
    + destruct (d_uneval d'), v; reflexivity.
  - (* the keyword is absent *)
    cbn [replace_uneval_here]. rewrite tmap_other, HU by reflexivity.
    rewrite (proj1 (eval_JObj d' E (tmap T m) v)).
    unfold eval_map, eval_obj. rewrite !(tmap_other T m "$ref"), (tmap_other T m "unevaluatedProperties"), HU
      by reflexivity.
    change (d_ref_alone d') with (d_ref_alone d).
    destruct (d_ref_alone d && _); [auto|]. cbn [option_map ok].
    intros H. apply andb_prop in H as [H _]. apply andb_true_intro; split.
    2:{ destruct (d_uneval d'), v; reflexivity. }
    unfold chk_main in *. splitb H.
    rewrite !tmap_data by in_names.
    rewrite (assertions_ext E (fun k => mget k (tmap T m)) (fun k => mget k m)).
    2:{ intros k Hk. apply tmap_data. unfold data_names. cbn [In]. tauto. }
    repeat match goal with |- (_ && _) = true => apply andb_true_intro; split end; auto.
    + eapply chk_all_le; [apply LA; in_names|assumption].
    + eapply chk_any_le; [apply LA; in_names|assumption].
    + rewrite <- (chk_one_eq v _ _ XO). assumption.
    + rewrite <- (chk_not_eq v _ _ (X1 "not" ltac:(in_names))). assumption.
    + eapply chk_if_le; [| | |eassumption].
      * apply when_den. apply X1; in_names.
      * apply L1; [in_names|reflexivity].
      * apply L1; [in_names|reflexivity].
    + eapply (chk_items_le v d); [| | | |eassumption]; try (solve [apply LA; in_names]); try exact LI.
      apply L1; [in_names|reflexivity].
    + eapply chk_contains_le; [|eassumption]. apply when_den_le, L1; [in_names|reflexivity].
    + eapply chk_props_le; [|eassumption]. apply LO; in_names.
    + eapply chk_patterns_le; [|eassumption]. exact HPat.
    + eapply chk_additional_le; [| |  |eassumption]; [apply LO; in_names|exact HPat|].
      apply L1; [in_names|reflexivity].
    + eapply chk_names_le; [|eassumption]. apply when_den_le, L1; [in_names|reflexivity].
    + rewrite tmap_other by reflexivity.
      change (d_depend d') with (d_depend d). rewrite <- (chk_dependent_eq v _ _ (when_obj (d_depend d) _ _ HDep)). assumption.
Qed.

(** ** No visited schema keeps the keyword *)
Lemma here_no_uneval m : match replace_uneval_here (JObj m) with JObj m' => no_uneval m' | _ => True end.
Proof.
  cbn [replace_uneval_here]. destruct (mget "unevaluatedProperties" m) eqn:HU; [|exact HU].
  assert (H1 : no_uneval (mset "additionalProperties" j (mdel "unevaluatedProperties" m)))
    by (unfold no_uneval; now rewrite mget_mset, mget_mdel).
  destruct (gather_names _); [exact H1|].
  destruct (mget "properties" _) as [[]|]; try exact H1; unfold no_uneval in *; now rewrite mget_mset.
Qed.
