(** Proofs that the built-in transforms preserve the meaning of schemas. *)
From Coq Require Import String Ascii List ZArith Bool Lia.
From Verif Require Import Json JsonFacts SchemaApi Validate ValidateFacts Transform TransformSpec
  TransformProofs.
Import ListNotations.
Open Scope string_scope.

(** Keywords of [m] read in dialect [d], its subschemas in dialect [d']. *)
Definition mixed (d d' : dialect) (E : env) (m : map_t) : json -> result :=
  eval_obj d E (fun k => mget k m) (fun k => option_map (sub_of d' E) (mget k m)).

(** The subschemas that the traversal does not visit mean the same in both dialects. *)
Definition unvisited_ok (d d' : dialect) (E : env) (m : map_t) : Prop :=
  (forall x, mget "unevaluatedProperties" m = Some x -> feq (eval d' E x) (eval d E x))
  /\ (forall p n x, mget "dependentSchemas" m = Some (JObj p) -> In (n, x) p ->
        feq (eval d' E x) (eval d E x)).

Lemma unvisited_same d E m : unvisited_ok d d E m.
Proof. split; auto. Qed.

Lemma eval_nonschema d d' E x : is_schema x = false -> feq (eval d' E x) (eval d E x).
Proof. destruct x; try discriminate; intros _; apply feq_refl. Qed.
Lemma eval_leaf d d' E x : is_obj x = false -> feq (eval d' E x) (eval d E x).
Proof. destruct x; try discriminate; intros _; apply feq_refl. Qed.

Lemma try_sub_sem d d' E t x :
  (is_schema x = true -> feq (eval d' E (t x)) (eval d E x)) ->
  feq (eval d' E (try_sub_p t x)) (eval d E x).
Proof. unfold try_sub_p. destruct (is_schema x) eqn:H; auto. intros _. now apply eval_nonschema. Qed.

Lemma map_try_sub_sem d d' E t l :
  (forall x, In x l -> is_schema x = true -> feq (eval d' E (t x)) (eval d E x)) ->
  Forall2 feq (map (eval d' E) (map (try_sub_p t) l)) (map (eval d E) l).
Proof.
  induction l as [|x l IH]; intros H; cbn [map]; constructor.
  - apply try_sub_sem. intros Hs. apply H; cbn; auto.
  - apply IH. intros y Hy. apply H; cbn; auto.
Qed.

Section TmapSem.
Variables (d d' : dialect) (E : env) (t : json -> json) (m : map_t).
Hypothesis HS : forall x, is_schema x = true -> is_schema (t x) = true.
Hypothesis HT : forall x, direct_sub m x -> feq (eval d' E (t x)) (eval d E x).

Lemma tmap_one k : In k kw_one -> shape_of k = One ->
  den_eq (option_map (sub_of d' E) (mget k (tmap t m))) (option_map (sub_of d E) (mget k m)).
Proof.
  intros Hk Hs. rewrite mget_tmap, Hs. destruct (mget k m) as [x|] eqn:Hm; constructor.
  apply try_sub_sem. intros Hx. apply HT. eapply ds_one; eauto. now apply mget_In.
Qed.
Lemma tmap_items_den :
  den_eq (option_map (sub_of d' E) (mget "items" (tmap t m))) (option_map (sub_of d E) (mget "items" m)).
Proof.
  rewrite mget_tmap. change (shape_of "items") with OneOrMany.
  destruct (mget "items" m) as [x|] eqn:Hm; constructor. cbn [sub_of s_den].
  assert (H : feq (eval d' E (try_sub_p t x)) (eval d E x)).
  { apply try_sub_sem. intros Hx. apply HT. apply (ds_one m "items"); auto.
    - cbn; tauto.
    - now apply mget_In. }
  destruct x; exact H.
Qed.
Lemma tmap_arr k : In k kw_list ->
  arr_eq (option_map (sub_of d' E) (mget k (tmap t m))) (option_map (sub_of d E) (mget k m)).
Proof.
  intros Hk. rewrite mget_tmap. destruct (mget k m) as [x|] eqn:Hm; [|constructor].
  unfold arr_eq; cbn [option_map arr_of sub_of s_arr].
  pose proof (proj1 (in_list k) Hk) as [Hs|Hs]; rewrite Hs; cbn [sub_value_p].
  - destruct x; try constructor. apply map_try_sub_sem. intros y Hy Hsy. apply HT.
    eapply ds_list; eauto. now apply mget_In.
  - assert (Hna : forall u, is_schema u = true ->
      match t u with JArr l => Some (map (eval d' E) l) | _ => None end = None).
    { intros u Hu. apply HS in Hu. destruct (t u); auto; discriminate. }
    destruct x; try constructor; try (unfold try_sub_p; cbn [is_schema]; rewrite Hna by reflexivity; constructor).
    apply map_try_sub_sem. intros y Hy Hsy. apply HT.
    eapply ds_list; eauto. now apply mget_In.
Qed.
Lemma tmap_obj k : In k kw_map ->
  obj_eq (option_map (sub_of d' E) (mget k (tmap t m))) (option_map (sub_of d E) (mget k m)).
Proof.
  intros Hk. rewrite mget_tmap. destruct (mget k m) as [x|] eqn:Hm; [|constructor].
  unfold obj_eq; cbn [option_map obj_of sub_of s_obj].
  rewrite (proj1 (in_kwmap k) Hk). cbn [sub_value_p].
  destruct x as [| | | | |p]; constructor.
  assert (H : forall n y, In (n, y) p -> is_schema y = true -> feq (eval d' E (t y)) (eval d E y)).
  { intros n y Hy Hsy. apply HT. eapply ds_map; eauto. now apply mget_In. }
  clear Hm. induction p as [|[n y] p IH]; cbn [map fst snd]; constructor.
  - split; cbn [fst snd]; [reflexivity|]. apply try_sub_sem. eapply H; now left.
  - apply IH. intros n' y' Hy. eapply H. right; eauto.
Qed.
Lemma tmap_other k : shape_of k = Other -> mget k (tmap t m) = mget k m.
Proof. intros Hs. rewrite mget_tmap, Hs. destruct (mget k m) as [[]|]; reflexivity. Qed.

Lemma tmap_srel : unvisited_ok d d' E m ->
  srel (fun k => option_map (sub_of d' E) (mget k (tmap t m)))
       (fun k => option_map (sub_of d E) (mget k m)).
Proof.
  intros [HU HD]. split.
  - intros k Hk. in_cases Hk; try (apply tmap_items_den);
      try (solve [apply tmap_one; [in_names|reflexivity]]).
    rewrite tmap_other by reflexivity.
    destruct (mget "unevaluatedProperties" m) as [x|]; constructor. now apply HU.
  - intros k Hk. apply tmap_arr. exact Hk.
  - intros k Hk. in_cases Hk; try (solve [apply tmap_obj; in_names]).
    rewrite tmap_other by reflexivity.
    destruct (mget "dependentSchemas" m) as [[| | | | |p]|] eqn:Hp; try constructor.
    cbn [sub_of s_obj]. assert (H : forall n x, In (n, x) p -> feq (eval d' E x) (eval d E x)) by eauto.
    clear -H. induction p as [|[n y] p IH]; cbn [map fst snd]; constructor.
    + split; [reflexivity|]. eapply H; now left.
    + apply IH. intros n' y' Hy. eapply H. right; eauto.
Qed.

Lemma tmap_data k : In k data_names -> mget k (tmap t m) = mget k m.
Proof. intros Hk. apply tmap_other. in_cases Hk; reflexivity. Qed.

Lemma tmap_sem : unvisited_ok d d' E m -> feq (mixed d d' E (tmap t m)) (eval d E (JObj m)).
Proof.
  intros HU v. eapply req_trans; [|apply req_sym, eval_JObj]. unfold mixed, eval_map.
  apply eval_obj_congr; [|now apply tmap_srel]. apply tmap_data.
Qed.
End TmapSem.

(** ** Post-order transforms *)
Lemma post_schema here : (forall s, is_schema s = true -> is_schema (here s) = true) ->
  forall s, is_schema s = true -> is_schema (post here s) = true.
Proof.
  intros H s Hs. rewrite post_unfold. apply H. destruct s; try discriminate; reflexivity.
Qed.

Lemma post_sem (d d' : dialect) (E : env) (here : json -> json) (P : map_t -> Prop) :
  (forall s, is_schema s = true -> is_schema (here s) = true) ->
  (forall s, is_obj s = false -> here s = s) ->
  (forall m t, P m -> (forall y, is_schema y = true -> is_schema (t y) = true) ->
     feq (eval d' E (here (JObj (tmap t m)))) (mixed d d' E (tmap t m))) ->
  (forall m, P m -> unvisited_ok d d' E m) ->
  forall s, everywhere P s -> feq (eval d' E (post here s)) (eval d E s).
Proof.
  intros HS HL HH HU s HP. induction HP as [s Hs|m HP _ IH].
  - rewrite post_leaf, HL by auto. now apply eval_leaf.
  - rewrite post_obj. eapply feq_trans; [apply HH; auto; now apply post_schema|].
    apply tmap_sem; auto. now apply post_schema.
Qed.

(** ** Comparing two object schemas keyword by keyword *)
Definition has_ref (R : string -> option json) : bool :=
  match R "$ref" with Some (JStr _) => true | _ => false end.

Lemma eval_obj_req d d' E R R' S S' v :
  d_ref_alone d && has_ref R = false -> d_ref_alone d' && has_ref R' = false ->
  chk_main d E R S v = chk_main d' E R' S' v ->
  (forall k, ev_main d E R S v k = ev_main d' E R' S' v k) ->
  den_eq (when (d_uneval d) (S "unevaluatedProperties"))
         (when (d_uneval d') (S' "unevaluatedProperties")) ->
  req (eval_obj d E R S v) (eval_obj d' E R' S' v).
Proof.
  unfold has_ref. intros H1 H2 HM HE HU. unfold eval_obj. rewrite H1, H2.
  split; cbn [ok ev].
  - rewrite HM. f_equal. now apply chk_uneval_eq.
  - intros k. rewrite HM, (HE k), (is_some_eq _ _ _ HU).
    now rewrite (chk_uneval_eq v _ _ _ _ HU HE).
Qed.

(** Same thing when a "$ref" hides everything else in both. *)
Lemma eval_obj_ref d d' E R R' S S' v :
  d_ref_alone d && has_ref R = true -> d_ref_alone d' && has_ref R' = true ->
  R "$ref" = R' "$ref" ->
  req (eval_obj d E R S v) (eval_obj d' E R' S' v).
Proof. unfold has_ref. intros H1 H2 HR. unfold eval_obj. rewrite H1, H2, HR. apply req_refl. Qed.

Ltac lookups :=
  cbv beta; repeat first [rewrite mget_mset | rewrite mget_mdel]; cbn [String.eqb Ascii.eqb Bool.eqb].

Ltac ev_same := try (let k := fresh "k" in intros k; unfold ev_main; lookups; reflexivity).

(** *** ReplaceConstValue *)
Definition set_const (b : bool) (d : dialect) : dialect :=
  Dialect (d_ref_alone d) (d_items d) (d_uneval d) (d_depend d) b (d_nullable d) (d_extra d).

Lemma assertions_ext E (R R' : string -> option json) v :
  (forall k, In k assertion_names -> R k = R' k) -> chk_assertions E R v = chk_assertions E R' v.
Proof. intros H. apply forallb_eq. intros k Hk. now rewrite H. Qed.

Lemma replace_const_here_sem d b E m : d_const d = true ->
  (mget "const" m <> None -> mget "enum" m = None) ->
  feq (eval (set_const b d) E (replace_const_here (JObj m))) (mixed d (set_const b d) E m).
Proof.
  intros Hd HP v. cbn [replace_const_here]. destruct (mget "const" m) as [x|] eqn:Hc.
  - specialize (HP ltac:(discriminate)).
    eapply req_trans; [apply eval_JObj|]. unfold eval_map, mixed.
    destruct (d_ref_alone d && has_ref (fun k => mget k m)) eqn:HR.
    { apply eval_obj_ref; unfold has_ref in *; lookups; auto. }
    apply eval_obj_req; unfold has_ref in *; lookups; auto; ev_same.
    unfold chk_main. lookups. rewrite HP, Hc.
    rewrite (assertions_ext E _ (fun k => mget k m)).
    2:{ intros k Hk. in_cases Hk; lookups; reflexivity. }
    cbn [chk_enum chk_const existsb set_const d_const]. rewrite Hd. cbn [negb orb].
    rewrite ?orb_false_r, ?andb_true_r. reflexivity.
  - eapply req_trans; [apply eval_JObj|]. unfold eval_map, mixed.
    destruct (d_ref_alone d && has_ref (fun k => mget k m)) eqn:HR.
    { apply eval_obj_ref; unfold has_ref in *; lookups; auto. }
    apply eval_obj_req; unfold has_ref in *; lookups; auto; ev_same.
    unfold chk_main. lookups. rewrite Hc. reflexivity.
Qed.

Lemma here_schema_const s : is_schema s = true -> is_schema (replace_const_here s) = true.
Proof. destruct s; try discriminate; auto. cbn. now destruct (mget "const" m). Qed.

(** Hypothesis on the unvisited subschemas: they are absent or booleans. *)
Definition no_hidden (m : map_t) : Prop :=
  mget "dependentSchemas" m = None
  /\ match mget "unevaluatedProperties" m with None => True | Some x => is_obj x = false end.
Lemma no_hidden_ok d d' E m : no_hidden m -> unvisited_ok d d' E m.
Proof.
  intros [H1 H2]. split.
  - intros x Hx. rewrite Hx in H2. now apply eval_leaf.
  - intros p n x Hp. congruence.
Qed.

Definition const_ok (m : map_t) : Prop := mget "const" m <> None -> mget "enum" m = None.

Lemma opt_none {A B} (f : A -> B) o : option_map f o = None <-> o = None.
Proof. destruct o; cbn; split; congruence. Qed.

Lemma replace_const_sem d b E s : d_const d = true ->
  everywhere (fun m => const_ok m /\ no_hidden m) s ->
  feq (eval (set_const b d) E (replace_const s)) (eval d E s).
Proof.
  intros Hd. apply post_sem.
  - apply here_schema_const.
  - intros [] H; try discriminate; reflexivity.
  - intros m t [HP _] Ht. apply replace_const_here_sem; auto.
    rewrite !mget_tmap, !opt_none. exact HP.
  - intros m [_ HU]. now apply no_hidden_ok.
Qed.

(** *** RemoveRefSiblings *)
Definition set_ref_alone (d : dialect) : dialect :=
  Dialect true (d_items d) (d_uneval d) (d_depend d) (d_const d) (d_nullable d) (d_extra d).

Definition ref_ok (m : map_t) : Prop :=
  match mget "$ref" m with
  | None => True
  | Some (JStr _) => match mget "allOf" m with None => True | Some (JArr _) => True | _ => False end
  | Some _ => False
  end.

Lemma eval_ref_only d E r v :
  ok (eval d E (JObj [("$ref", JStr r)]) v) = ok (e_ref E r v)
  /\ forall k, evs (eval d E (JObj [("$ref", JStr r)]) v) k = evs (e_ref E r v) k.
Proof.
  pose proof (eval_JObj d E [("$ref", JStr r)] v) as [H1 H2].
  assert (HR : req (eval_map d E [("$ref", JStr r)] v)
                   (Res (ok (e_ref E r v)) (fun k => evs (e_ref E r v) k))).
  { unfold eval_map, eval_obj. change (mget "$ref" [("$ref", JStr r)]) with (Some (JStr r)).
    change (mget "unevaluatedProperties" [("$ref", JStr r)]) with (@None json). cbn [option_map].
    destruct (d_ref_alone d); cbn [andb].
    - split; cbn [ok ev chk_ref ev_ref]; [reflexivity|]. intros k. unfold evs.
      destruct (ok (e_ref E r v)); reflexivity.
    - assert (HM : chk_main d E (fun k => mget k [("$ref", JStr r)])
                     (fun k => option_map (sub_of d E) (mget k [("$ref", JStr r)])) v
                   = ok (e_ref E r v)).
      { destruct d as [? [] ? [] ? ? []]; destruct v; unfold chk_main; cbn;
        rewrite ?andb_true_r; destruct (ok (e_ref E r _)); reflexivity. }
      assert (HE : forall k, ev_main d E (fun k => mget k [("$ref", JStr r)])
                     (fun k => option_map (sub_of d E) (mget k [("$ref", JStr r)])) v k
                   = evs (e_ref E r v) k).
      { intros k. destruct d as [? [] ? [] ? ? []]; destruct v; unfold ev_main; cbn;
        rewrite ?orb_false_r; reflexivity. }
      rewrite HM. destruct d as [? ? [] ? ? ? ?]; split; cbn [ok ev when d_uneval is_some orb]; unfold chk_uneval;
        try (destruct v; apply andb_true_r); intros k; rewrite HE; unfold evs;
        destruct v; rewrite ?andb_true_r; now destruct (ok (e_ref E r _)). }
  destruct HR as [H3 H4]. cbn [ok ev] in *.
  split; [congruence|]. intros k. unfold evs. rewrite H1, H2, H3, H4. unfold evs.
  now destruct (ok (e_ref E r v)).
Qed.

Lemma short_map (m : map_t) k x : Nat.ltb 1 (List.length m) = false -> mget k m = Some x -> m = [(k, x)].
Proof.
  destruct m as [|[k1 x1] [|]]; cbn; try discriminate. intros _.
  destruct (String.eqb_spec k k1); [|discriminate]. intros H. injection H as ->. now subst.
Qed.

Lemma remove_ref_here_sem d E m : d_ref_alone d = false -> ref_ok m ->
  feq (eval (set_ref_alone d) E (remove_ref_siblings_here (JObj m))) (mixed d (set_ref_alone d) E m).
Proof.
  intros Hd HP v. cbn [remove_ref_siblings_here]. unfold ref_ok in HP.
  set (d' := set_ref_alone d).
  destruct (mget "$ref" m) as [r|] eqn:Hr.
  - destruct r as [| | |r| |]; try contradiction.
    destruct (Nat.ltb 1 (List.length m)) eqn:Hlen.
    + rewrite mget_mdel. cbn [String.eqb Ascii.eqb Bool.eqb].
      destruct (eval_ref_only d' E r v) as [Hok Hev].
      assert (HM : forall l, match mget "allOf" m with None => l = [] | Some x => x = JArr l end ->
        req (eval d' E (JObj (mset "allOf" (JArr (l ++ [JObj [("$ref", JStr r)]])) (mdel "$ref" m))) v)
            (mixed d d' E m v)).
      { intros l Hl. eapply req_trans; [apply eval_JObj|]. unfold eval_map, mixed.
        apply eval_obj_req; unfold has_ref in *; lookups; rewrite ?Hd, ?andb_false_r; auto.
        - unfold chk_main. lookups.
          rewrite (assertions_ext E _ (fun k => mget k m)).
          2:{ intros k Hk. in_cases Hk; lookups; reflexivity. }
          rewrite Hr.
          assert (HA : chk_all (option_map (sub_of d' E) (Some (JArr (l ++ [JObj [("$ref", JStr r)]])))) v
                       = chk_all (option_map (sub_of d' E) (mget "allOf" m)) v && ok (e_ref E r v)).
          { unfold chk_all at 1. cbn [option_map arr_of sub_of s_arr].
            rewrite map_app, forallb_app. cbn [map forallb]. rewrite Hok, andb_true_r. f_equal.
            destruct (mget "allOf" m) as [x|]; subst; reflexivity. }
          rewrite HA. change (chk_ref E (Some (JStr r)) v) with (ok (e_ref E r v)).
          cbn [chk_ref].
          destruct (ok (e_ref E r v)); cbn [andb]; rewrite ?andb_true_r, ?andb_false_r; reflexivity.
        - intros k. unfold ev_main. lookups. rewrite Hr.
          assert (HA : ev_list (option_map (sub_of d' E) (Some (JArr (l ++ [JObj [("$ref", JStr r)]])))) v k
                       = ev_list (option_map (sub_of d' E) (mget "allOf" m)) v k || evs (e_ref E r v) k).
          { unfold ev_list at 1. cbn [option_map arr_of sub_of s_arr].
            rewrite map_app, existsb_app. cbn [map existsb]. rewrite Hev, orb_false_r. f_equal.
            destruct (mget "allOf" m) as [x|]; subst; reflexivity. }
          rewrite HA. change (ev_ref E (Some (JStr r)) v k) with (evs (e_ref E r v) k). cbn [ev_ref].
          destruct (evs (e_ref E r v) k); rewrite ?orb_true_r, ?orb_false_r; reflexivity. }
      destruct (mget "allOf" m) as [[| | | |l|]|]; try contradiction; apply (HM _ eq_refl).
    + rewrite (short_map _ _ _ Hlen Hr). clear.
      eapply req_trans; [|apply (eval_JObj d E [("$ref", JStr r)])].
      assert (HH : forall d0, req (eval d0 E (JObj [("$ref", JStr r)]) v)
                 (Res (ok (e_ref E r v)) (fun k => evs (e_ref E r v) k))).
      { intros d0. destruct (eval_ref_only d0 E r v) as [H1 H2]. split; cbn [ok ev]; [exact H1|].
        intros k. rewrite <- H2. unfold evs. cbn [eval]. unfold eval_obj.
        destruct (d_ref_alone d0 && _); cbn [ok ev];
          match goal with |- ?a && ?b = ?a && (?a && ?b) => destruct a; reflexivity end. }
      eapply req_trans; [apply HH|]. apply req_sym.
      eapply req_trans; [|apply HH]. apply req_refl.
  - destruct (Nat.ltb 1 (List.length m)).
    all: eapply req_trans; [apply eval_JObj|]; unfold eval_map, mixed.
    all: apply eval_obj_req; unfold has_ref in *; lookups; rewrite ?Hr, ?andb_false_r; auto; ev_same.
Qed.

Lemma here_schema_ref s : is_schema s = true -> is_schema (remove_ref_siblings_here s) = true.
Proof.
  destruct s; try discriminate; auto. unfold remove_ref_siblings_here. intros _.
  destruct (Nat.ltb 1 (List.length m)); auto.
  destruct (mget "$ref" m); auto. now destruct (mget "allOf" _) as [[]|].
Qed.

Lemma remove_ref_siblings_sem d E s : d_ref_alone d = false ->
  everywhere (fun m => ref_ok m /\ no_hidden m) s ->
  feq (eval (set_ref_alone d) E (remove_ref_siblings s)) (eval d E s).
Proof.
  intros Hd. apply post_sem.
  - apply here_schema_ref.
  - intros [] H; try discriminate; reflexivity.
  - intros m t [HP _] Ht. apply remove_ref_here_sem; auto. unfold ref_ok in *.
    rewrite !mget_tmap. destruct (mget "$ref" m) as [[]|]; auto; cbn.
    destruct (mget "allOf" m) as [[]|]; auto.
  - intros m [_ HU]. now apply no_hidden_ok.
Qed.

(** *** ReplacePrefixItems *)
Definition set_items (st : items_style) (d : dialect) : dialect :=
  Dialect (d_ref_alone d) st (d_uneval d) (d_depend d) (d_const d) (d_nullable d) (d_extra d).

(** "prefixItems" is an array, "items" is not, and there is no "additionalItems" (i.e. the schema
    is written for 2020-12). *)
Definition prefix_ok (m : map_t) : Prop :=
  match mget "prefixItems" m with None => True | Some (JArr _) => True | _ => False end
  /\ match mget "items" m with Some (JArr _) => False | _ => True end
  /\ mget "additionalItems" m = None.

Lemma replace_prefix_here_sem d E m : d_items d = Prefix -> prefix_ok m ->
  feq (eval (set_items ArrayItems d) E (replace_prefix_here (JObj m)))
      (mixed d (set_items ArrayItems d) E m).
Proof.
  intros Hd (HP & HI & HA) v. cbn [replace_prefix_here]. set (d' := set_items ArrayItems d).
  assert (H : forall m', replace_prefix_here (JObj m) = JObj m' ->
    (forall k, k <> "prefixItems" -> k <> "items" -> k <> "additionalItems" -> mget k m' = mget k m) ->
    (forall S, S = sub_of d' E ->
       chk_items d' (option_map S (mget "prefixItems" m')) (option_map S (mget "items" m'))
                    (option_map S (mget "additionalItems" m')) v =
       chk_items d (option_map S (mget "prefixItems" m)) (option_map S (mget "items" m))
                    (option_map S (mget "additionalItems" m)) v) ->
    req (eval d' E (JObj m') v) (mixed d d' E m v)).
  { intros m' _ Hk Hi. eapply req_trans; [apply eval_JObj|]. unfold eval_map, mixed.
    assert (Hr : mget "$ref" m' = mget "$ref" m) by (apply Hk; discriminate).
    destruct (d_ref_alone d && has_ref (fun k => mget k m)) eqn:HR.
    { apply eval_obj_ref; unfold has_ref in *; rewrite ?Hr; auto. }
    apply eval_obj_req; unfold has_ref in *; rewrite ?Hr; auto.
    - unfold chk_main. rewrite (Hi _ eq_refl).
      rewrite (assertions_ext E _ (fun k => mget k m)).
      2:{ intros k Hin. in_cases Hin; apply Hk; discriminate. }
      rewrite !(Hk "$ref"), !(Hk "type"), !(Hk "nullable"), !(Hk "enum"), !(Hk "const"), !(Hk "allOf"),
        !(Hk "anyOf"), !(Hk "oneOf"), !(Hk "not"), !(Hk "if"), !(Hk "then"), !(Hk "else"),
        !(Hk "contains"), !(Hk "properties"), !(Hk "patternProperties"),
        !(Hk "additionalProperties"), !(Hk "propertyNames"), !(Hk "dependentSchemas")
        by discriminate. reflexivity.
    - intros k. unfold ev_main.
      rewrite !(Hk "$ref"), !(Hk "allOf"),
        !(Hk "anyOf"), !(Hk "oneOf"), !(Hk "if"), !(Hk "then"), !(Hk "else"),
        !(Hk "properties"), !(Hk "patternProperties"),
        !(Hk "additionalProperties"), !(Hk "dependentSchemas")
        by discriminate. reflexivity.
    - rewrite Hk by discriminate. auto. }
  cbn [replace_prefix_here] in H.
  destruct (mget "prefixItems" m) as [p|] eqn:Hp.
  - destruct p as [| | | |fs|]; try contradiction. rewrite mget_mdel in *.
    cbn [String.eqb Ascii.eqb Bool.eqb] in *.
    destruct (mget "items" m) as [it|] eqn:Hit.
    + apply H; [reflexivity| |].
      * intros k H1 H2 H3. rewrite !mget_mset, mget_mdel.
        rewrite (proj2 (String.eqb_neq _ _) H1), (proj2 (String.eqb_neq _ _) H2),
          (proj2 (String.eqb_neq _ _) H3). reflexivity.
      * intros S ->. lookups. destruct v; try reflexivity. cbn [chk_items]. rewrite Hd.
        cbn [d' set_items d_items option_map sub_of s_arr arr_of]. reflexivity.
    + apply H; [reflexivity| |].
      * intros k H1 H2 H3. rewrite !mget_mset, mget_mdel.
        rewrite (proj2 (String.eqb_neq _ _) H1), (proj2 (String.eqb_neq _ _) H2). reflexivity.
      * intros S ->. lookups. destruct v; try reflexivity. cbn [chk_items]. rewrite Hd, HA.
        cbn [d' set_items d_items option_map sub_of s_arr arr_of]. reflexivity.
  - apply H; [reflexivity|auto|].
    intros S ->. rewrite Hp, HA. destruct v; try reflexivity. cbn [chk_items]. rewrite Hd.
    cbn [d' set_items d_items option_map arr_of zip_ok andb List.length skipn].
    destruct (mget "items" m) as [it|]; [|reflexivity]. cbn [option_map sub_of s_arr].
    destruct it; try contradiction; reflexivity.
Qed.

Lemma here_schema_prefix s : is_schema s = true -> is_schema (replace_prefix_here s) = true.
Proof.
  destruct s; try discriminate; auto. cbn. destruct (mget "prefixItems" m); auto.
  now destruct (mget "items" _).
Qed.

Lemma is_schema_not_arr x : is_schema x = true -> match x with JArr _ => False | _ => True end.
Proof. destruct x; try discriminate; auto. Qed.

Lemma replace_prefix_items_sem d E s : d_items d = Prefix ->
  everywhere (fun m => prefix_ok m /\ no_hidden m) s ->
  feq (eval (set_items ArrayItems d) E (replace_prefix_items s)) (eval d E s).
Proof.
  intros Hd. apply post_sem.
  - apply here_schema_prefix.
  - intros [] H; try discriminate; reflexivity.
  - intros m t [(HP & HI & HA) _] Ht. apply replace_prefix_here_sem; auto. unfold prefix_ok in *.
    rewrite !mget_tmap, HA. repeat split.
    + destruct (mget "prefixItems" m) as [[]|]; auto.
    + destruct (mget "items" m) as [x|]; auto. cbn [option_map].
      change (shape_of "items") with OneOrMany.
      destruct x; auto; unfold sub_value_p, try_sub_p; cbn [is_schema]; auto;
        apply is_schema_not_arr, Ht; reflexivity.
  - intros m [_ HU]. now apply no_hidden_ok.
Qed.

(** *** ReplaceBoolSchemas: no hypotheses *)
Lemma replace_bool_local skip : body_local (replace_bool_body skip).
Proof.
  intros f g s H. destruct s; try reflexivity. unfold replace_bool_body.
  assert (HD : forall m', (forall x, direct_sub m' x -> direct_sub m x) ->
    transform_subschemas f (JObj m') = transform_subschemas g (JObj m')).
  { intros m' Hm'. apply transform_subschemas_ext. intros m2 x Heq Hx. injection Heq as <-.
    apply H, direct_depth, Hm', Hx. }
  destruct (if skip then _ else _).
  - rewrite HD; [reflexivity|]. intros x. apply direct_mdel.
  - apply HD. auto.
Qed.
Lemma replace_bool_unfold skip s : replace_bool skip s = replace_bool_body skip (replace_bool skip) s.
Proof. apply run_t_unfold, replace_bool_local. Qed.
Lemma replace_bool_schema skip s : is_schema s = true -> is_schema (replace_bool skip s) = true.
Proof.
  rewrite replace_bool_unfold. destruct s; try discriminate; auto. intros _. unfold replace_bool_body.
  destruct (if skip then _ else _); reflexivity.
Qed.

Lemma srel_refl S : srel S S.
Proof. split; auto. Qed.

Lemma replace_bool_sem skip d E s : feq (eval d E (replace_bool skip s)) (eval d E s).
Proof.
  revert s. refine (direct_ind _ _ _).
  - intros s Hs. rewrite replace_bool_unfold. destruct s as [|[]| | | |]; try discriminate; try apply feq_refl.
    + intros v. apply req_sym, eval_true.
    + intros v. apply req_sym, eval_false.
  - intros m IH. rewrite replace_bool_unfold. unfold replace_bool_body.
    assert (HS : srel (fun k => option_map (sub_of d E) (mget k (tmap (replace_bool skip) m)))
                   (fun k => option_map (sub_of d E) (mget k m))).
    { apply tmap_srel; auto using replace_bool_schema, unvisited_same. }
    destruct (if skip then _ else _) as [ap|] eqn:Hap.
    + destruct skip; [|discriminate]. cbn [transform_subschemas].
      intros v. eapply req_trans; [apply eval_JObj|]. apply req_sym.
      eapply req_trans; [apply eval_JObj|]. apply req_sym.
      assert (HL : forall k, mget k (mset "additionalProperties" ap
                       (tmap (replace_bool true) (mdel "additionalProperties" m)))
                     = if String.eqb k "additionalProperties" then mget k m
                       else mget k (tmap (replace_bool true) m)).
      { intros k. rewrite mget_mset, !mget_tmap, mget_mdel.
        destruct (String.eqb_spec k "additionalProperties"); [subst; auto|reflexivity]. }
      apply eval_obj_congr.
      * intros k Hk. unfold tmap in HL. rewrite HL. fold (tmap (replace_bool true) m).
        rewrite (tmap_data _ m) by auto. now destruct (String.eqb k _).
      * split; intros k Hk; unfold tmap in HL; rewrite HL; fold (tmap (replace_bool true) m);
          destruct (String.eqb k _); auto; apply HS; auto.
    + cbn [transform_subschemas]. intros v. eapply req_trans; [apply eval_JObj|]. apply req_sym.
      eapply req_trans; [apply eval_JObj|]. apply req_sym.
      apply eval_obj_congr; [|exact HS]. intros k Hk. now apply tmap_data.
Qed.

(** *** SetSingleExample: no hypotheses *)
Lemma here_schema_example s : is_schema s = true -> is_schema (set_single_example_here s) = true.
Proof. destruct s; try discriminate; auto. cbn. now destruct (mget "examples" m) as [[| | | |[]|]|]. Qed.

Lemma set_single_example_sem d E s : feq (eval d E (set_single_example s)) (eval d E s).
Proof.
  apply (post_sem d d E set_single_example_here (fun _ => True)).
  - apply here_schema_example.
  - intros [] H; try discriminate; reflexivity.
  - intros m0 t _ _. generalize (tmap t m0) as m. intros m.
    eapply feq_trans; [|apply (eval_JObj d E m)].
    assert (H : forall k, In k (data_names ++ den_names ++ arr_names ++ obj_names) ->
      k <> "example" /\ k <> "examples") by (intros k Hk; in_cases Hk; split; discriminate).
    cbn [set_single_example_here].
    destruct (mget "examples" m) as [[| | | |[|x l]|]|]; apply eval_lookup_eq; intros k Hk;
      destruct (H k Hk) as [H1 H2]; rewrite ?mget_mset, mget_mdel,
        ?(proj2 (String.eqb_neq _ _) H1), ?(proj2 (String.eqb_neq _ _) H2); reflexivity.
  - intros. apply unvisited_same.
  - apply everywhere_nested. auto.
Qed.
