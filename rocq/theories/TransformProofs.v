(** Proofs about the traversal: which schemas it visits, and that it terminates. *)
From Coq Require Import String Ascii List ZArith Bool Lia.
From Verif Require Import Json JsonFacts SchemaApi Transform TransformSpec.
Import ListNotations.
Open Scope string_scope.

(** ** Direct subschemas as a list *)
Definition direct_of (sh : shape) (v : json) : list json :=
  match sh, v with
  | One, _ => filter is_schema [v]
  | Many, JArr l => filter is_schema l
  | OneOrMany, JArr l => filter is_schema l
  | OneOrMany, _ => filter is_schema [v]
  | Named, JObj m => filter is_schema (map snd m)
  | _, _ => []
  end.
Definition direct (m : map_t) : list json :=
  flat_map (fun kv => direct_of (shape_of (fst kv)) (snd kv)) m.

Lemma mem_In k l : mem k l = true <-> In k l.
Proof.
  unfold mem. rewrite existsb_exists. split.
  - intros (x & H & E). apply String.eqb_eq in E. now subst.
  - intros H. exists k. now rewrite String.eqb_refl.
Qed.

Ltac in_cases H := cbn in H; repeat (destruct H as [H|H]; [subst|]); try contradiction.

Lemma shape_one k : shape_of k = One <-> In k one_keys.
Proof.
  unfold shape_of. rewrite <- mem_In. destruct (mem k one_keys); [tauto|].
  destruct (mem k many_keys), (String.eqb k "items"), (mem k named_keys); split; discriminate.
Qed.
Lemma shape_many k : shape_of k = Many <-> In k many_keys.
Proof.
  split.
  - unfold shape_of. rewrite <- mem_In. destruct (mem k one_keys); [discriminate|].
    destruct (mem k many_keys); [reflexivity|].
    destruct (String.eqb k "items"), (mem k named_keys); discriminate.
  - intros H. in_cases H; reflexivity.
Qed.
Lemma shape_items k : shape_of k = OneOrMany <-> k = "items".
Proof.
  split.
  - unfold shape_of. destruct (mem k one_keys), (mem k many_keys); try discriminate.
    destruct (String.eqb_spec k "items"); auto. destruct (mem k named_keys); discriminate.
  - intros ->. reflexivity.
Qed.
Lemma shape_named k : shape_of k = Named <-> In k named_keys.
Proof.
  split.
  - unfold shape_of. rewrite <- mem_In. destruct (mem k one_keys), (mem k many_keys),
      (String.eqb k "items"); try discriminate. destruct (mem k named_keys); [reflexivity|discriminate].
  - intros H. in_cases H; reflexivity.
Qed.

Lemma in_one k : In k kw_one <-> shape_of k = One \/ shape_of k = OneOrMany.
Proof. rewrite shape_one, shape_items. cbn. intuition auto. Qed.
Lemma in_list k : In k kw_list <-> shape_of k = Many \/ shape_of k = OneOrMany.
Proof. rewrite shape_many, shape_items. cbn. intuition auto. Qed.
Lemma in_kwmap k : In k kw_map <-> shape_of k = Named.
Proof. rewrite shape_named. cbn. intuition auto. Qed.

Lemma direct_spec m x : In x (direct m) <-> direct_sub m x.
Proof.
  unfold direct. rewrite in_flat_map. split.
  - intros ([k v] & Hin & Hx). cbn [fst snd] in Hx.
    destruct (shape_of k) eqn:Es; cbn [direct_of] in Hx.
    + apply filter_In in Hx as [[->|[]] Hs]. eapply ds_one; eauto. apply in_one; auto.
    + destruct v; try contradiction. apply filter_In in Hx as [Hl Hs].
      eapply ds_list; eauto. apply in_list; auto.
    + destruct v; try (apply filter_In in Hx as [[<-|[]] Hs]; eapply ds_one; eauto; apply in_one; auto).
      apply filter_In in Hx as [Hl Hs]. eapply ds_list; eauto. apply in_list; auto.
    + destruct v; try contradiction. apply filter_In in Hx as [Hl Hs].
      apply in_map_iff in Hl as ([n y] & <- & Hl). eapply ds_map; eauto. apply in_kwmap; auto.
    + destruct v; contradiction.
  - intros [k y Hk Hin Hs|k l y Hk Hin Hl Hs|k p n y Hk Hin Hl Hs].
    + exists (k, y). split; [auto|]. cbn [fst snd]. apply in_one in Hk.
      assert (In y (filter is_schema [y])) by (apply filter_In; split; [now left|auto]).
      destruct Hk as [-> | ->]; cbn [direct_of]; auto. destruct y; auto; discriminate.
    + exists (k, JArr l). split; [auto|]. cbn [fst snd]. apply in_list in Hk.
      destruct Hk as [-> | ->]; cbn [direct_of]; apply filter_In; auto.
    + exists (k, JObj p). split; [auto|]. cbn [fst snd]. apply in_kwmap in Hk.
      rewrite Hk; cbn [direct_of]. apply filter_In; split; auto.
      apply in_map_iff. now exists (n, y).
Qed.

Lemma direct_sub_schema m x : direct_sub m x -> is_schema x = true.
Proof. now intros []. Qed.

Lemma direct_depth m x : direct_sub m x -> depth x < depth (JObj m).
Proof.
  intros [k y Hk Hin Hs|k l y Hk Hin Hl Hs|k p n y Hk Hin Hl Hs].
  - apply depth_In_obj in Hin. exact Hin.
  - apply depth_In_obj in Hin. apply depth_In_arr in Hl. cbn [snd] in *. lia.
  - apply depth_In_obj in Hin. apply depth_In_obj in Hl. cbn [snd] in *. lia.
Qed.

(** Induction along direct subschemas. *)
Lemma direct_ind (P : json -> Prop) :
  (forall s, is_obj s = false -> P s) ->
  (forall m, (forall x, direct_sub m x -> P x) -> P (JObj m)) ->
  forall s, P s.
Proof.
  intros HL HO.
  assert (H : forall n s, depth s < n -> P s).
  { induction n as [|n IH]; intros s Hd; [lia|].
    destruct s; try (apply HL; reflexivity).
    apply HO. intros x Hx. apply IH. apply direct_depth in Hx. lia. }
  intros s. apply (H (S (depth s))). lia.
Qed.

(** ** The stateless traversal *)
Definition tmap (t : json -> json) (m : map_t) : map_t :=
  map (fun kv => (fst kv, sub_value_p t (shape_of (fst kv)) (snd kv))) m.

Lemma mget_tmap t k m : mget k (tmap t m) = option_map (sub_value_p t (shape_of k)) (mget k m).
Proof. apply (mget_map (fun k => sub_value_p t (shape_of k))). Qed.

Lemma keys_tmap t m : map fst (tmap t m) = map fst m.
Proof. unfold tmap. rewrite map_map. reflexivity. Qed.

Lemma try_sub_p_ext f g v : (is_schema v = true -> f v = g v) -> try_sub_p f v = try_sub_p g v.
Proof. unfold try_sub_p. destruct (is_schema v); auto. Qed.

Lemma sub_value_p_ext f g sh v :
  (forall x, In x (direct_of sh v) -> f x = g x) -> sub_value_p f sh v = sub_value_p g sh v.
Proof.
  intros H.
  assert (H1 : In v (filter is_schema [v]) \/ is_schema v = false).
  { destruct (is_schema v) eqn:E; [|now right]. left. apply filter_In; split; [now left|auto]. }
  assert (HF : forall l, (forall x, In x (filter is_schema l) -> f x = g x) ->
                         map (try_sub_p f) l = map (try_sub_p g) l).
  { intros l Hl. apply map_ext_in. intros x Hx. apply try_sub_p_ext. intros Hs.
    apply Hl, filter_In; auto. }
  destruct sh; cbn [sub_value_p].
  - apply try_sub_p_ext. intros Hs. apply H. cbn. rewrite Hs. now left.
  - destruct v; auto. f_equal. apply HF, H.
  - destruct v; try (apply try_sub_p_ext; intros Hs; apply H; cbn; now left); auto;
      try (unfold try_sub_p; reflexivity).
    f_equal. apply HF, H.
  - destruct v; auto. f_equal. apply map_ext_in. intros [n x] Hx. cbn [fst snd]. f_equal.
    apply try_sub_p_ext. intros Hs. apply H. cbn [direct_of]. apply filter_In; split; auto.
    apply in_map_iff. now exists (n, x).
  - destruct v; reflexivity.
Qed.

Lemma tmap_ext f g m : (forall x, direct_sub m x -> f x = g x) -> tmap f m = tmap g m.
Proof.
  intros H. unfold tmap. apply map_ext_in. intros [k v] Hin. cbn [fst snd]. f_equal.
  apply sub_value_p_ext. intros x Hx. apply H, direct_spec. unfold direct. apply in_flat_map.
  now exists (k, v).
Qed.

Lemma transform_subschemas_ext f g s :
  (forall m x, s = JObj m -> direct_sub m x -> f x = g x) ->
  transform_subschemas f s = transform_subschemas g s.
Proof.
  intros H. destruct s; auto. cbn [transform_subschemas]. f_equal. apply tmap_ext.
  intros x Hx. eapply H; eauto.
Qed.

Lemma sub_value_p_id f sh v :
  (forall x, In x (direct_of sh v) -> f x = x) -> sub_value_p f sh v = v.
Proof.
  intros H. rewrite (sub_value_p_ext f (fun x => x) sh v H).
  assert (HT : forall v, try_sub_p (fun x => x) v = v) by (intros u; unfold try_sub_p; now destruct (is_schema u)).
  destruct sh; cbn [sub_value_p]; auto; destruct v; auto; f_equal.
  - rewrite <- (map_id l) at 2. now apply map_ext.
  - rewrite <- (map_id l) at 2. now apply map_ext.
  - rewrite <- (map_id m) at 2. apply map_ext. intros [k x]. cbn. now rewrite HT.
Qed.

Lemma tmap_id f m : (forall x, direct_sub m x -> f x = x) -> tmap f m = m.
Proof.
  intros H. unfold tmap. rewrite <- (map_id m) at 2. apply map_ext_in. intros [k v] Hin.
  cbn [fst snd]. f_equal. apply sub_value_p_id. intros x Hx. apply H, direct_spec.
  unfold direct. apply in_flat_map. now exists (k, v).
Qed.

(** Direct subschemas after the traversal: the images, when schemas are mapped to schemas. *)
Lemma In_try_sub f l x : (forall y, is_schema y = true -> is_schema (f y) = true) ->
  In x (filter is_schema (map (try_sub_p f) l)) <->
  exists y, In y (filter is_schema l) /\ x = f y.
Proof.
  intros Hf. rewrite filter_In, in_map_iff. split.
  - intros ((y & <- & Hy) & Hs). unfold try_sub_p in *. destruct (is_schema y) eqn:E; [|congruence].
    exists y. split; auto. now apply filter_In.
  - intros (y & Hy & ->). apply filter_In in Hy as [Hy Hs]. split; [|auto].
    exists y. unfold try_sub_p. now rewrite Hs.
Qed.

Lemma direct_of_sub_value f sh v x : (forall y, is_schema y = true -> is_schema (f y) = true) ->
  In x (direct_of sh (sub_value_p f sh v)) <-> exists y, In y (direct_of sh v) /\ x = f y.
Proof.
  intros Hf.
  assert (H1 : forall v, In x (filter is_schema [try_sub_p f v]) <->
                         exists y, In y (filter is_schema [v]) /\ x = f y).
  { intros u. apply (In_try_sub f [u] x Hf). }
  assert (HOM : forall u, is_schema u = true -> direct_of OneOrMany u = filter is_schema [u]).
  { intros [] Hu; try discriminate; reflexivity. }
  destruct sh; cbn [sub_value_p].
  - apply H1.
  - destruct v; cbn [direct_of]; try (split; [intros []|intros (y & [] & _)]). now apply In_try_sub.
  - destruct v; try (cbn; split; [intros []|intros (y & [] & _)]); try unfold try_sub_p; cbn [is_schema].
    + rewrite HOM by (apply Hf; reflexivity). apply (H1 (JBool b)).
    + cbn [direct_of]. now apply In_try_sub.
    + rewrite HOM by (apply Hf; reflexivity). apply (H1 (JObj m)).
  - destruct v; cbn [direct_of]; try (split; [intros []|intros (y & [] & _)]).
    rewrite map_map. cbn [snd]. rewrite <- (map_map snd (try_sub_p f)). now apply In_try_sub.
  - destruct v; cbn; (split; [intros []|intros (y & [] & _)]).
Qed.

Lemma direct_tmap f m x : (forall y, is_schema y = true -> is_schema (f y) = true) ->
  direct_sub (tmap f m) x <-> exists y, direct_sub m y /\ x = f y.
Proof.
  intros Hf. rewrite <- direct_spec. unfold direct, tmap. rewrite in_flat_map. split.
  - intros ([k v] & Hin & Hx). apply in_map_iff in Hin as ([k' v'] & Heq & Hin).
    cbn [fst snd] in *. injection Heq as <- <-.
    apply (direct_of_sub_value f _ _ _ Hf) in Hx as (y & Hy & ->). exists y. split; auto.
    apply direct_spec. apply in_flat_map. now exists (k', v').
  - intros (y & Hy & ->). apply direct_spec in Hy. apply in_flat_map in Hy as ([k v] & Hin & Hy).
    exists (k, sub_value_p f (shape_of k) v). split.
    + apply in_map_iff. now exists (k, v).
    + cbn [fst snd] in *. apply (direct_of_sub_value f _ _ _ Hf). eauto.
Qed.

(** ** Recursion: the bound is never reached *)
Definition body_local (body : (json -> json) -> json -> json) : Prop :=
  forall f g s, (forall x, depth x < depth s -> f x = g x) -> body f s = body g s.

Lemma fuelled_stable body : body_local body ->
  forall n n' s, depth s <= n -> depth s <= n' -> fuelled n body s = fuelled n' body s.
Proof.
  intros HB. induction n as [|n IH]; intros n' s Hn Hn'.
  - pose proof (depth_pos s). lia.
  - destruct n' as [|n']; [pose proof (depth_pos s); lia|]. cbn [fuelled].
    apply HB. intros x Hx. apply IH; lia.
Qed.

Lemma run_t_unfold body s : body_local body -> run_t body s = body (run_t body) s.
Proof.
  intros HB. unfold run_t at 1. destruct (depth s) eqn:Ed; [pose proof (depth_pos s); lia|].
  cbn [fuelled]. apply HB. intros x Hx. unfold run_t. apply fuelled_stable; auto; lia.
Qed.

(** Any larger bound gives the same result. *)
Lemma run_t_any body n s : body_local body -> depth s <= n -> fuelled n body s = run_t body s.
Proof. intros HB Hn. unfold run_t. apply fuelled_stable; auto. Qed.

(** Post-order transforms. *)
Definition post (here : json -> json) : json -> json :=
  run_t (fun self s => here (transform_subschemas self s)).

Lemma post_local here : body_local (fun self s => here (transform_subschemas self s)).
Proof.
  intros f g s H. f_equal. apply transform_subschemas_ext. intros m x -> Hx. apply H.
  now apply direct_depth.
Qed.
Lemma post_unfold here s : post here s = here (transform_subschemas (post here) s).
Proof. apply (run_t_unfold _ s (post_local here)). Qed.
Lemma post_obj here m : post here (JObj m) = here (JObj (tmap (post here) m)).
Proof. rewrite post_unfold. reflexivity. Qed.
Lemma post_leaf here s : is_obj s = false -> post here s = here s.
Proof. intros H. rewrite post_unfold. now destruct s. Qed.

(** Pre-order transforms that do not create subschemas. *)
Definition pre (here : json -> json) : json -> json :=
  run_t (fun self s => transform_subschemas self (here s)).
Definition keeps_subs (here : json -> json) : Prop :=
  forall s, (is_obj s = false -> is_obj (here s) = false)
            /\ forall m, s = JObj m -> exists m', here s = JObj m' /\
                                    (forall x, direct_sub m' x -> direct_sub m x).
Lemma pre_local here : keeps_subs here -> body_local (fun self s => transform_subschemas self (here s)).
Proof.
  intros HK f g s H. apply transform_subschemas_ext. intros m x Hm Hx.
  destruct (HK s) as [K1 K2]. destruct s as [| | | | |m0];
    try (specialize (K1 eq_refl); rewrite Hm in K1; discriminate).
  destruct (K2 m0 eq_refl) as (m' & Hh & HD). rewrite Hm in Hh. injection Hh as <-.
  apply H. apply direct_depth. auto.
Qed.
Lemma pre_unfold here s : keeps_subs here -> pre here s = transform_subschemas (pre here) (here s).
Proof. intros HK. apply (run_t_unfold _ s (pre_local here HK)). Qed.

(** Changing a key that is not a subschema keyword does not change the direct subschemas. *)
Lemma direct_mset_other k v m x : shape_of k = Other -> direct_sub (mset k v m) x -> direct_sub m x.
Proof.
  intros Hk. rewrite <- !direct_spec. unfold direct. rewrite !in_flat_map.
  intros ([k' v'] & Hin & Hx). apply mset_In in Hin as [Heq|Hin]; [|now exists (k', v')].
  injection Heq as -> ->. cbn [fst snd] in Hx. rewrite Hk in Hx. destruct v; contradiction.
Qed.
Lemma direct_mdel k m x : direct_sub (mdel k m) x -> direct_sub m x.
Proof.
  rewrite <- !direct_spec. unfold direct. rewrite !in_flat_map.
  intros (kv & Hin & Hx). apply mdel_In in Hin. eauto.
Qed.

(** ** Stateful traversal = stateless traversal + the log of visits *)
Section Log.
Context {St : Type} (f : json -> json) (step : json -> St -> St).
Definition with_log : tr St := fun s st => (f s, step s st).
Definition visit (l : list json) (st : St) : St := fold_left (fun st s => step s st) l st.

Lemma visit_app l1 l2 st : visit (l1 ++ l2) st = visit l2 (visit l1 st).
Proof. apply fold_left_app. Qed.

Lemma map_st_log {A} (F : A -> St -> A * St) (G : A -> A) (D : A -> list json) l st :
  (forall a st, F a st = (G a, visit (D a) st)) ->
  map_st F l st = (map G l, visit (flat_map D l) st).
Proof.
  intros H. revert st. induction l as [|a l IH]; intros st; cbn [map_st map flat_map]; [reflexivity|].
  rewrite H, IH, visit_app. reflexivity.
Qed.

Lemma try_sub_log v st :
  try_sub with_log v st = (try_sub_p f v, visit (filter is_schema [v]) st).
Proof. unfold try_sub, try_sub_p, with_log. cbn. destruct (is_schema v); reflexivity. Qed.

Lemma flat_map_filter (l : list json) : flat_map (fun v => filter is_schema [v]) l = filter is_schema l.
Proof. induction l as [|a l IH]; cbn; [auto|]. destruct (is_schema a); cbn; now rewrite <- IH. Qed.

Lemma sub_value_log sh v st :
  sub_value with_log sh v st = (sub_value_p f sh v, visit (direct_of sh v) st).
Proof.
  assert (HA : forall l st, map_st (try_sub with_log) l st
                            = (map (try_sub_p f) l, visit (filter is_schema l) st)).
  { intros l st'. rewrite (map_st_log _ (try_sub_p f) (fun v => filter is_schema [v])) by apply try_sub_log.
    now rewrite flat_map_filter. }
  destruct sh; cbn [sub_value sub_value_p direct_of].
  - apply try_sub_log.
  - destruct v; try reflexivity. cbn [try_arr]. now rewrite HA.
  - destruct v; try apply try_sub_log. cbn [try_arr]. now rewrite HA.
  - destruct v; try reflexivity. cbn [try_obj].
    rewrite (map_st_log _ (fun kv => (fst kv, try_sub_p f (snd kv))) (fun kv => filter is_schema [snd kv])).
    + rewrite <- (flat_map_filter (map snd m)). rewrite !flat_map_concat_map, map_map. reflexivity.
    + intros [k x] st'. cbn [fst snd]. now rewrite try_sub_log.
  - destruct v; reflexivity.
Qed.

Lemma subschemas_log m st :
  transform_subschemas_st with_log (JObj m) st = (JObj (tmap f m), visit (direct m) st).
Proof.
  cbn [transform_subschemas_st].
  rewrite (map_st_log _ (fun kv => (fst kv, sub_value_p f (shape_of (fst kv)) (snd kv)))
             (fun kv => direct_of (shape_of (fst kv)) (snd kv))).
  - reflexivity.
  - intros [k v] st'. cbn [fst snd]. now rewrite sub_value_log.
Qed.
End Log.

Lemma subschemas_stateless (f : json -> json) s :
  transform_subschemas_st (fun x (u : unit) => (f x, u)) s tt = (transform_subschemas f s, tt).
Proof.
  destruct s; try reflexivity.
  pose proof (subschemas_log f (fun _ u => u) m tt) as H. unfold with_log in H. rewrite H.
  f_equal. induction (direct m); cbn; auto.
Qed.

(** ** everywhere *)
Lemma everywhere_inv P m : everywhere P (JObj m) -> P m /\ forall x, direct_sub m x -> everywhere P x.
Proof. intros H. inversion H as [s Hs|m' H1 H2]; subst; [discriminate|auto]. Qed.

Lemma everywhere_impl (P Q : map_t -> Prop) s : (forall m, P m -> Q m) -> everywhere P s -> everywhere Q s.
Proof. intros H. induction 1; [now apply ew_leaf|apply ew_obj; auto]. Qed.

Lemma everywhere_and (P Q : map_t -> Prop) s :
  everywhere P s -> everywhere Q s -> everywhere (fun m => P m /\ Q m) s.
Proof.
  induction 1 as [s Hs|m HP _ IH]; intros HQ; [now apply ew_leaf|].
  apply everywhere_inv in HQ as [HQ1 HQ2]. apply ew_obj; auto.
Qed.

Lemma everywhere_nested (P : map_t -> Prop) s :
  everywhere P s <-> forall m, nested s (JObj m) -> P m.
Proof.
  split.
  - intros H m Hn.
    assert (HE : forall x, nested s x -> everywhere P x).
    { intros x Hx. induction Hx as [|m' x Hn' IH Hd]; [auto|]. apply everywhere_inv in IH as [_ IH]. auto. }
    apply HE in Hn. now apply everywhere_inv in Hn.
  - revert s. refine (direct_ind _ _ _).
    + intros s Hs _. now apply ew_leaf.
    + intros m IH H. apply ew_obj; [apply H; constructor|]. intros x Hx. apply IH; auto.
      intros m' Hn. apply H.
      clear -Hx Hn. remember (JObj m') as y. clear Heqy.
      induction Hn as [|m2 y Hn IH Hd]; [econstructor; [constructor|auto]|]. econstructor; eauto.
Qed.
