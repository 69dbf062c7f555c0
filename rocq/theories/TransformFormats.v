(** RestrictFormats: the state is a context inherited by subschemas; only "format" entries are
    removed. *)
From Coq Require Import String Ascii List ZArith Bool Lia.
From Verif Require Import Json JsonFacts SchemaApi Validate ValidateFacts Transform TransformSpec
  TransformProofs TransformSem.
Import ListNotations.
Open Scope string_scope.

Definition ctx := option (list string).

(** The context for [m] and its subschemas; [None] when "$schema" is not recognised. *)
Definition next_ctx (infer : bool) (c : ctx) (m : map_t) : option ctx :=
  match (if infer then mget "$schema" m else None) with
  | Some u =>
      let u := match u with JStr x => x | _ => "" end in
      if String.eqb u uri_draft07 then Some (Some (skipn 2 defined_formats))
      else if String.eqb u uri_2019 || String.eqb u uri_2020 then Some (Some defined_formats)
      else None
  | None => Some c
  end.

Definition permitted (allowed : list string) (c : ctx) (f : string) : bool :=
  mem f allowed || match c with Some fs => mem f fs | None => false end.

Definition strip (allowed : list string) (c : ctx) (m : map_t) : map_t :=
  match mget "format" m with
  | Some (JStr f) => if permitted allowed c f then m else mdel "format" m
  | _ => m
  end.

(** The same recursion with the context as a parameter. *)
Fixpoint rf (n : nat) (infer : bool) (allowed : list string) (c : ctx) (s : json) : json :=
  match n with
  | O => s
  | S n' =>
      match s with
      | JObj m =>
          match next_ctx infer c m with
          | None => s
          | Some c1 => transform_subschemas (rf n' infer allowed c1) (JObj (strip allowed c1 m))
          end
      | _ => s
      end
  end.

Section Const.
Context {St : Type} (t : tr St) (f : json -> json) (st : St).
Hypothesis Ht : forall s, t s st = (f s, st).
Lemma map_st_const {A} (F : A -> St -> A * St) (G : A -> A) l :
  (forall a, F a st = (G a, st)) -> map_st F l st = (map G l, st).
Proof. intros H. induction l as [|a l IH]; cbn; [reflexivity|]. now rewrite H, IH. Qed.
Lemma try_sub_const v : try_sub t v st = (try_sub_p f v, st).
Proof. unfold try_sub, try_sub_p. destruct (is_schema v); auto. Qed.
Lemma sub_value_const sh v : sub_value t sh v st = (sub_value_p f sh v, st).
Proof.
  destruct sh; cbn [sub_value sub_value_p].
  - apply try_sub_const.
  - destruct v; try reflexivity. cbn [try_arr]. now rewrite (map_st_const _ (try_sub_p f)) by apply try_sub_const.
  - destruct v; try apply try_sub_const. cbn [try_arr].
    now rewrite (map_st_const _ (try_sub_p f)) by apply try_sub_const.
  - destruct v; try reflexivity. cbn [try_obj].
    rewrite (map_st_const _ (fun kv => (fst kv, try_sub_p f (snd kv)))); [reflexivity|].
    intros [k x]. cbn [fst snd]. now rewrite try_sub_const.
  - destruct v; reflexivity.
Qed.
Lemma subschemas_const s : transform_subschemas_st t s st = (transform_subschemas f s, st).
Proof.
  destruct s; try reflexivity. cbn [transform_subschemas_st transform_subschemas].
  rewrite (map_st_const _ (fun kv => (fst kv, sub_value_p f (shape_of (fst kv)) (snd kv)))); [reflexivity|].
  intros [k x]. cbn [fst snd]. now rewrite sub_value_const.
Qed.
End Const.

Lemma restrict_rf n infer allowed : forall s c,
  restrict_formats_impl n infer allowed s c = (rf n infer allowed c s, c).
Proof.
  induction n as [|n IH]; intros s c; cbn [restrict_formats_impl rf]; [reflexivity|].
  destruct s as [| | | | |m]; try reflexivity.
  set (nx := match (if infer then mget "$schema" m else None) with Some _ => _ | None => _ end).
  change nx with (next_ctx infer c m). destruct (next_ctx infer c m) as [c1|]; [|reflexivity].
  set (m1 := match mget "format" m with Some _ => _ | None => _ end).
  assert (Hm : m1 = strip allowed c1 m).
  { unfold m1, strip, permitted. destruct (mget "format" m) as [[]|]; auto.
    destruct (mem s allowed); cbn [negb andb orb]; auto.
    destruct (match c1 with Some fs => mem s fs | None => false end); auto. }
  rewrite Hm. rewrite (subschemas_const _ (rf n infer allowed c1) c1) by (intros s; apply IH). reflexivity.
Qed.

Lemma direct_strip allowed c m x : direct_sub (strip allowed c m) x -> direct_sub m x.
Proof.
  unfold strip. destruct (mget "format" m) as [[]|]; auto. destruct (permitted allowed c s); auto.
  apply direct_mdel.
Qed.

Lemma rf_stable infer allowed n : forall n' c s, depth s <= n -> depth s <= n' ->
  rf n infer allowed c s = rf n' infer allowed c s.
Proof.
  induction n as [|n IH]; intros n' c s Hn Hn'; [pose proof (depth_pos s); lia|].
  destruct n' as [|n']; [pose proof (depth_pos s); lia|]. cbn [rf].
  destruct s as [| | | | |m]; try reflexivity.
  destruct (next_ctx infer c m) as [c1|]; [|reflexivity].
  apply transform_subschemas_ext. intros m1 x Hm Hx. injection Hm as <-.
  apply direct_strip, direct_depth in Hx. apply IH; lia.
Qed.

(** RestrictFormats in context [c]. *)
Definition RF (infer : bool) (allowed : list string) (c : ctx) (s : json) : json :=
  rf (depth s) infer allowed c s.

Lemma restrict_formats_RF infer allowed s : restrict_formats infer allowed s = RF infer allowed None s.
Proof. unfold restrict_formats. now rewrite restrict_rf. Qed.

Lemma RF_obj infer allowed c m :
  RF infer allowed c (JObj m) =
  match next_ctx infer c m with
  | None => JObj m
  | Some c1 => JObj (tmap (RF infer allowed c1) (strip allowed c1 m))
  end.
Proof.
  unfold RF at 1. cbn [depth rf]. destruct (next_ctx infer c m) as [c1|]; [|reflexivity].
  cbn [transform_subschemas]. f_equal. apply tmap_ext. intros x Hx. unfold RF.
  apply rf_stable; [|lia]. apply direct_strip, direct_depth in Hx. cbn [depth] in Hx. lia.
Qed.
Lemma RF_leaf infer allowed c s : is_obj s = false -> RF infer allowed c s = s.
Proof. destruct s; try discriminate; reflexivity. Qed.
Lemma RF_schema infer allowed c s : is_schema s = true -> is_schema (RF infer allowed c s) = true.
Proof.
  destruct s; try discriminate; auto. intros _. rewrite RF_obj. now destruct (next_ctx infer c m).
Qed.

(** If "format" is an annotation (no format is ever violated), nothing changes for validation. *)
Lemma RF_sem infer allowed d E s : (forall f v, e_fmt E f v = true) ->
  forall c, feq (eval d E (RF infer allowed c s)) (eval d E s).
Proof.
  intros HE. revert s. refine (direct_ind _ _ _).
  - intros s Hs c. rewrite RF_leaf by auto. apply feq_refl.
  - intros m IH c. rewrite RF_obj. destruct (next_ctx infer c m) as [c1|]; [|apply feq_refl].
    assert (H1 : feq (mixed d d E (tmap (RF infer allowed c1) (strip allowed c1 m)))
                   (eval d E (JObj (strip allowed c1 m)))).
    { apply tmap_sem; auto using RF_schema, unvisited_same. intros x Hx. apply IH.
      eapply direct_strip; eauto. }
    eapply feq_trans; [apply eval_JObj|]. eapply feq_trans; [exact H1|].
    unfold strip. destruct (mget "format" m) as [[]|] eqn:Hf; try apply feq_refl.
    destruct (permitted allowed c1 s); [apply feq_refl|].
    intros v. eapply req_trans; [apply eval_JObj|]. apply req_sym.
    eapply req_trans; [apply eval_JObj|]. apply req_sym. unfold eval_map.
    destruct (d_ref_alone d && has_ref (fun k => mget k m)) eqn:HR.
    { apply eval_obj_ref; unfold has_ref in *; lookups; auto. }
    apply eval_obj_req; unfold has_ref in *; lookups; auto; ev_same.
    unfold chk_main. lookups.
    assert (HA : chk_assertions E (fun k => mget k (mdel "format" m)) v
                 = chk_assertions E (fun k => mget k m) v).
    { unfold chk_assertions. apply forallb_eq. intros k Hk. rewrite mget_mdel.
      destruct (String.eqb_spec k "format"); [|reflexivity]. subst. rewrite Hf.
      cbn. now rewrite HE. }
    rewrite HA. reflexivity.
Qed.

(** Only "format" entries disappear. *)
Inductive only_formats_dropped : json -> json -> Prop :=
| ofd_same s : only_formats_dropped s s
| ofd_obj m m' :
    (forall k, k <> "format" -> mhas k m' = mhas k m) ->
    (forall k x y, k <> "format" -> mget k m = Some x -> mget k m' = Some y -> same_but_formats k x y) ->
    (mget "format" m' = mget "format" m \/ mget "format" m' = None) ->
    only_formats_dropped (JObj m) (JObj m')
with same_but_formats : string -> json -> json -> Prop :=
| sbf_same k x : same_but_formats k x x
| sbf_sub k x y : In k kw_one -> only_formats_dropped x y -> same_but_formats k x y
| sbf_arr k l l' : In k kw_list -> Forall2 only_formats_dropped l l' ->
    same_but_formats k (JArr l) (JArr l')
| sbf_map k p p' : In k kw_map ->
    Forall2 (fun a b => fst a = fst b /\ only_formats_dropped (snd a) (snd b)) p p' ->
    same_but_formats k (JObj p) (JObj p').

Lemma RF_only_formats infer allowed s : forall c, only_formats_dropped s (RF infer allowed c s).
Proof.
  revert s. refine (direct_ind _ _ _).
  - intros s Hs c. rewrite RF_leaf by auto. constructor.
  - intros m IH c. rewrite RF_obj. destruct (next_ctx infer c m) as [c1|]; [|constructor].
    assert (IHt : forall x, direct_sub m x -> only_formats_dropped x (RF infer allowed c1 x)) by auto.
    apply ofd_obj.
    all: assert (Hs : forall k, k <> "format" -> mget k (strip allowed c1 m) = mget k m) by
      (intros k Hk; unfold strip; destruct (mget "format" m) as [[]|]; auto; destruct (permitted allowed c1 s); auto;
        rewrite mget_mdel; now rewrite (proj2 (String.eqb_neq _ _) Hk)).
    + intros k Hk. unfold mhas. rewrite mget_tmap, Hs by auto. now destruct (mget k m).
    + intros k x z Hk Hm Hz. rewrite mget_tmap, Hs, Hm in Hz by auto. cbn [option_map] in Hz.
      injection Hz as <-. apply mget_In in Hm.
      assert (H1 : In k kw_one -> is_schema x = true -> only_formats_dropped x (RF infer allowed c1 x)).
      { intros Hin Hx. apply IHt. eapply ds_one; eauto. }
      assert (HA : forall l, In k kw_list -> x = JArr l ->
        Forall2 only_formats_dropped l (map (try_sub_p (RF infer allowed c1)) l)).
      { intros l Hin ->.
        assert (HH : forall y, In y l -> is_schema y = true -> only_formats_dropped y (RF infer allowed c1 y)).
        { intros y Hy Hsy. apply IHt. eapply ds_list; eauto. }
        clear -HH. induction l as [|y l IHl]; cbn; constructor.
        - unfold try_sub_p. destruct (is_schema y) eqn:Hy; [apply HH; cbn; auto|constructor].
        - apply IHl. intros z Hz. apply HH. now right. }
      assert (HT : In k kw_one -> same_but_formats k x (try_sub_p (RF infer allowed c1) x)).
      { intros Hin. unfold try_sub_p. destruct (is_schema x) eqn:Hx; [|apply sbf_same].
        apply sbf_sub; auto. }
      destruct (shape_of k) eqn:Esh.
      * apply HT, in_one; auto.
      * destruct x; try apply sbf_same. assert (In k kw_list) by (apply in_list; auto). apply sbf_arr; auto.
      * destruct x; try (apply HT, in_one; auto). assert (In k kw_list) by (apply in_list; auto).
        apply sbf_arr; auto.
      * assert (In k kw_map) by (apply in_kwmap; auto). destruct x as [| | | | |p]; try apply sbf_same.
        apply sbf_map; auto.
        assert (HH : forall n y, In (n, y) p -> is_schema y = true -> only_formats_dropped y (RF infer allowed c1 y)).
        { intros n y Hy Hsy. apply IHt. eapply ds_map; eauto. }
        clear -HH. induction p as [|[n y] p IHp]; cbn; constructor.
        -- split; cbn; [reflexivity|]. unfold try_sub_p. destruct (is_schema y) eqn:Hy; [eapply HH; cbn; eauto|constructor].
        -- apply IHp. intros n' z Hz. eapply HH. right; eauto.
      * destruct x; apply sbf_same.
    + rewrite tmap_other by reflexivity. unfold strip.
      destruct (mget "format" m) as [[]|] eqn:Hf; auto. destruct (permitted allowed c1 s); auto.
      right. now rewrite mget_mdel.
Qed.

(** Which formats survive: [visits c s c' m] - the traversal of [s] in context [c] reaches the
    object schema [m] in context [c'] (its "$schema" already taken into account). *)
Inductive visits (infer : bool) : ctx -> json -> ctx -> map_t -> Prop :=
| visits_here c m c1 : next_ctx infer c m = Some c1 -> visits infer c (JObj m) c1 m
| visits_below c m c1 x c' m' : next_ctx infer c m = Some c1 -> direct_sub m x ->
    visits infer c1 x c' m' -> visits infer c (JObj m) c' m'.

Lemma next_ctx_strip_tmap infer allowed c c1 m t :
  next_ctx infer c (tmap t (strip allowed c1 m)) = next_ctx infer c m.
Proof.
  unfold next_ctx. rewrite tmap_other by reflexivity.
  assert (H : mget "$schema" (strip allowed c1 m) = mget "$schema" m).
  { unfold strip. destruct (mget "format" m) as [[]|]; auto. destruct (permitted allowed c1 s); auto.
    now rewrite mget_mdel. }
  now rewrite H.
Qed.

Lemma RF_permitted infer allowed s : forall c c' m f,
  visits infer c (RF infer allowed c s) c' m -> mget "format" m = Some (JStr f) ->
  permitted allowed c' f = true.
Proof.
  revert s. refine (direct_ind _ _ _).
  - intros s Hs c c' m f HV. rewrite RF_leaf in HV by auto.
    destruct s; try discriminate; inversion HV.
  - intros m IH c c' m' f HV Hf. rewrite RF_obj in HV.
    destruct (next_ctx infer c m) as [c1|] eqn:Hn.
    + inversion HV as [c0 m0 c2 Hn2|c0 m0 c2 x c3 m3 Hn2 Hd HV2]; subst.
      * rewrite next_ctx_strip_tmap, Hn in Hn2. injection Hn2 as <-.
        rewrite tmap_other in Hf by reflexivity. unfold strip in Hf.
        destruct (mget "format" m) as [[]|] eqn:Hfm; try congruence.
        destruct (permitted allowed c1 s) eqn:Hp.
        -- rewrite Hfm in Hf. injection Hf as <-. exact Hp.
        -- rewrite mget_mdel in Hf. discriminate.
      * rewrite next_ctx_strip_tmap, Hn in Hn2. injection Hn2 as <-.
        apply direct_tmap in Hd; [|apply RF_schema]. destruct Hd as (y & Hy & ->).
        eapply IH; eauto. eapply direct_strip; eauto.
    + inversion HV; congruence.
Qed.

Lemma RF_idem infer allowed s : forall c, RF infer allowed c (RF infer allowed c s) = RF infer allowed c s.
Proof.
  revert s. refine (direct_ind _ _ _).
  - intros s Hs c. now rewrite !RF_leaf by (rewrite ?RF_leaf; auto).
  - intros m IH c. rewrite RF_obj. destruct (next_ctx infer c m) as [c1|] eqn:Hn.
    + rewrite RF_obj, next_ctx_strip_tmap, Hn. f_equal.
      assert (Hst : strip allowed c1 (tmap (RF infer allowed c1) (strip allowed c1 m))
                    = tmap (RF infer allowed c1) (strip allowed c1 m)).
      { unfold strip at 1. rewrite tmap_other by reflexivity. unfold strip at 1.
        destruct (mget "format" m) as [[]|] eqn:Hf; try (rewrite Hf; reflexivity).
        destruct (permitted allowed c1 s) eqn:Hp; [rewrite Hf, Hp; reflexivity|].
        rewrite mget_mdel. reflexivity. }
      rewrite Hst. apply tmap_id. intros x Hx. apply direct_tmap in Hx; [|apply RF_schema].
      destruct Hx as (y & Hy & ->). apply IH. eapply direct_strip; eauto.
    + rewrite RF_obj, Hn. reflexivity.
Qed.
