(** Lemmas for C04-C07. *)
From Coq Require Import String Ascii List ZArith Bool Lia Sorting.Sorted.
From Verif Require Import Json JsonFacts Utf8 Encoding EncodingProofs Pointer PointerProofs
  SchemaApi SchemaSer SchemaSpec.
Import ListNotations.
Open Scope string_scope.

(** ** C05 *)
Lemma represents_ensure v s :
  represents v s -> exists m, ensure_object v = Ok m /\ forall k, mget k m = object_form s k.
Proof.
  destruct v, s; cbn; try contradiction; intros H.
  - subst. destruct b0.
    + exists []. split; reflexivity.
    + eexists. split; [reflexivity|]. intros k. cbn. unfold upd, empty_map.
      now destruct (String.eqb k "not").
  - eauto.
Qed.

Lemma step_refines o v s s' p :
  represents v s -> spec_step o s = Some (s', p) ->
  exists v' r, step o v = Ok (v', r) /\ represents v' s' /\ obs_match r p.
Proof.
  intros R H. destruct o; cbn in H; try discriminate.
  - injection H as <- <-.
    destruct (represents_ensure v s R) as (m & E & Hm). unfold step, s_insert. rewrite E.
    do 2 eexists. split; [reflexivity|]. cbn. split; [|apply Hm].
    intros k'. rewrite mget_mset. unfold upd. destruct (String.eqb k' k); auto.
  - injection H as <- <-. do 2 eexists. split; [reflexivity|]. split; [exact R|].
    destruct v, s; cbn in *; try contradiction; auto.
  - destruct v, s; cbn in *; try contradiction; subst.
    + do 2 eexists. split; [reflexivity|]. injection H as <- <-. cbn. auto.
    + unfold mhas. rewrite R. destruct (f k) eqn:E; injection H as <- <-;
        do 2 eexists; (split; [reflexivity|]); cbn; split; auto.
      intros k'. rewrite mget_mupd. unfold upd. destruct (String.eqb_spec k' k); auto.
      subst. rewrite R, E. reflexivity.
  - destruct v, s; cbn in *; try contradiction; subst; injection H as <- <-;
      do 2 eexists; (split; [reflexivity|]); cbn; split; auto.
    intros k'. rewrite mget_mdel. unfold upd. destruct (String.eqb k' k); auto.
  - injection H as <- <-.
    destruct (represents_ensure v s R) as (m & E & Hm). unfold step. rewrite E.
    do 2 eexists. split; [reflexivity|]. cbn. auto.
  - injection H as <- <-. destruct v, s; cbn in *; try contradiction; subst;
      do 2 eexists; (split; [reflexivity|]); cbn; auto.
Qed.

Lemma run_refines ops : forall v s s' ps,
  represents v s -> spec_run ops s = Some (s', ps) ->
  exists v' rs, run ops v = Ok (v', rs) /\ represents v' s' /\ Forall2 obs_match rs ps.
Proof.
  induction ops as [|o ops IH]; intros v s s' ps R H; cbn in H.
  - injection H as <- <-. exists v, []. cbn. auto.
  - destruct (spec_step o s) as [[s1 p]|] eqn:E; [|discriminate].
    destruct (spec_run ops s1) as [[s2 ps2]|] eqn:E2; [|discriminate].
    injection H as <- <-.
    destruct (step_refines _ _ _ _ _ R E) as (v1 & r & S1 & R1 & O1).
    destruct (IH _ _ _ _ R1 E2) as (v2 & rs & S2 & R2 & O2).
    exists v2, (r :: rs). cbn. rewrite S1, S2. auto.
Qed.

(** ** C06 *)
Definition root_pointer (p : string) : bool :=
  match effective_pointer p with Some q => String.eqb q "" | None => false end.

Definition safe_op (o : op) : bool :=
  match o with OPointerSet p _ => negb (root_pointer p) | _ => true end.

Lemma set_child_schema t c v : is_schema v = true -> is_schema (set_child t c v) = true.
Proof. destruct v; cbn; try discriminate; auto. Qed.

Lemma step_schema o v : is_schema v = true -> safe_op o = true ->
  exists v' r, step o v = Ok (v', r) /\ is_schema v' = true.
Proof.
  intros S F. destruct o; cbn.
  - unfold s_insert. destruct v as [|[]| | | |]; try discriminate; cbn; eauto.
  - eauto.
  - destruct v; try discriminate; cbn; eauto. destruct (mhas k m); eauto.
  - destruct v; try discriminate; cbn; eauto.
  - destruct v as [|[]| | | |]; try discriminate; cbn; eauto.
  - eauto.
  - cbn in F. unfold root_pointer in F. unfold s_pointer_set.
    destruct (effective_pointer p) as [q|]; [|eauto].
    destruct (String.eqb_spec q ""); [discriminate|].
    unfold value_pointer_set. destruct (tokens q) as [ts|] eqn:T; [|eauto].
    destruct ts as [|t ts].
    { exfalso. destruct q as [|a q']; [congruence|]. cbn [tokens] in T.
      destruct (Ascii.eqb_spec a "/"); [|discriminate]. subst a. cbn in T.
      destruct (split_on "/" q') as [h t]. cbn in T. discriminate. }
    cbn. destruct (child t v) as [c|]; [|eauto].
    destruct (walk_set ts x c); [|eauto].
    do 2 eexists. split; [reflexivity|]. now apply set_child_schema.
  - destruct v; try discriminate; cbn; eauto.
Qed.

Lemma run_schema ops : forall v, is_schema v = true -> forallb safe_op ops = true ->
  exists v' rs, run ops v = Ok (v', rs) /\ is_schema v' = true.
Proof.
  induction ops as [|o ops IH]; intros v S F; cbn.
  - eauto.
  - cbn in F. apply andb_true_iff in F as [Fo F].
    destruct (step_schema o v S Fo) as (v1 & r & -> & S1).
    destruct (IH v1 S1 F) as (v2 & rs & -> & S2). eauto.
Qed.

(** ** C07 *)
Lemma str_mem_In k l : str_mem k l = true <-> In k l.
Proof.
  unfold str_mem. rewrite existsb_exists. split.
  - intros (x & Hx & E). apply String.eqb_eq in E. now subst.
  - intros H. exists k. split; [exact H|apply String.eqb_refl].
Qed.

Lemma mget_app {A} k (m1 m2 : list (string * A)) :
  mget k (m1 ++ m2)%list = match mget k m1 with Some v => Some v | None => mget k m2 end.
Proof.
  induction m1 as [|[k2 v2] m1 IH]; cbn; [reflexivity|].
  destruct (String.eqb k k2); auto.
Qed.

Lemma mget_pick {A} k (m : list (string * A)) L :
  mget k (flat_map (fun k => match mget k m with Some v => [(k, v)] | None => [] end) L)
  = if str_mem k L then mget k m else None.
Proof.
  induction L as [|x L IH]; [reflexivity|].
  cbn [flat_map]. rewrite mget_app, IH. unfold str_mem. cbn [existsb].
  fold (str_mem k L).
  destruct (mget x m) eqn:E; cbn [mget].
  - destruct (String.eqb_spec k x); [subst; now rewrite E|reflexivity].
  - destruct (String.eqb_spec k x); [subst; rewrite E; now destruct (str_mem x L)|reflexivity].
Qed.

Lemma mget_filter {A} k (m : list (string * A)) (p : string -> bool) :
  mget k (filter (fun kv => p (fst kv)) m) = if p k then mget k m else None.
Proof.
  induction m as [|[k2 v2] m IH]; cbn; [now destruct (p k)|].
  destruct (p k2) eqn:E; cbn; rewrite ?IH.
  - destruct (String.eqb_spec k k2); [subst; now rewrite E|reflexivity].
  - destruct (String.eqb_spec k k2); [subst; now rewrite E|reflexivity].
Qed.

Lemma mget_emission {A} k (m : list (string * A)) : mget k (emission_order m) = mget k m.
Proof.
  unfold emission_order. rewrite !mget_app, !mget_pick.
  rewrite (mget_filter k m (fun k => negb (str_mem k ORDERED_KEYWORDS_START)
                                     && negb (str_mem k ORDERED_KEYWORDS_END))).
  destruct (str_mem k ORDERED_KEYWORDS_START), (str_mem k ORDERED_KEYWORDS_END); cbn;
    destruct (mget k m); reflexivity.
Qed.

Lemma emission_In {A} kv (m : list (string * A)) : In kv (emission_order m) -> In kv m.
Proof.
  unfold emission_order. rewrite !in_app_iff, filter_In, !in_flat_map.
  intros [(k & _ & H)|[[H _]|(k & _ & H)]]; auto.
  - destruct (mget k m) eqn:E; [|destruct H]. destruct H as [<-|[]]. now apply mget_In.
  - destruct (mget k m) eqn:E; [|destruct H]. destruct H as [<-|[]]. now apply mget_In.
Qed.

(** Strong sortedness of concatenations. *)
Lemma SSorted_app {A} (R : A -> A -> Prop) l1 l2 :
  StronglySorted R l1 -> StronglySorted R l2 ->
  (forall x y, In x l1 -> In y l2 -> R x y) -> StronglySorted R (l1 ++ l2).
Proof.
  induction l1 as [|a l1 IH]; cbn; intros H1 H2 H; [exact H2|].
  inversion H1; subst. constructor.
  - apply IH; auto.
  - apply Forall_app. split; [assumption|]. apply Forall_forall. intros y Hy. apply H; auto.
Qed.

Lemma SSorted_pick {A} (R : string -> string -> Prop) (m : list (string * A)) L :
  StronglySorted R L ->
  StronglySorted R (map fst (flat_map (fun k => match mget k m with Some v => [(k, v)] | None => [] end) L)).
Proof.
  induction 1 as [|k L HL IH HF]; cbn; [constructor|].
  rewrite map_app. apply SSorted_app; [|exact IH|].
  - destruct (mget k m); cbn; repeat constructor.
  - intros x y Hx Hy. destruct (mget k m); cbn in Hx; [|tauto].
    destruct Hx as [<-|[]]. rewrite Forall_forall in HF. apply HF.
    apply in_map_iff in Hy as ([k' v'] & <- & Hy). apply in_flat_map in Hy as (k2 & H1 & H2).
    destruct (mget k2 m); [|destruct H2]. destruct H2 as [H2|[]]. injection H2 as <- _. exact H1.
Qed.

Lemma SSorted_filter {A} (R : string -> string -> Prop) (p : string * A -> bool) m :
  StronglySorted R (map fst m) -> StronglySorted R (map fst (filter p m)).
Proof.
  induction m as [|kv m IH]; cbn; intros H; [constructor|]. inversion H; subst.
  destruct (p kv); [|auto]. cbn. constructor; [auto|].
  rewrite Forall_forall in *. intros x Hx. apply in_map_iff in Hx as (kv' & <- & Hx).
  apply filter_In in Hx as [Hx _]. apply H3. now apply in_map.
Qed.

Lemma sorted_SS ks : sorted_keys ks = true -> StronglySorted byte_order ks.
Proof.
  induction ks as [|k ks IH]; [constructor|]. intros H. apply sorted_keys_cons in H as [H1 H2].
  constructor; auto.
Qed.

Lemma rank_start k : str_mem k ORDERED_KEYWORDS_START = true -> rank k < 7.
Proof.
  intros H. apply str_mem_In in H. cbn in H.
  repeat (destruct H as [<-|H]; [vm_compute; lia|]). destruct H.
Qed.
Lemma rank_end k : str_mem k ORDERED_KEYWORDS_END = true -> 7 < rank k.
Proof.
  intros H. apply str_mem_In in H. cbn in H.
  repeat (destruct H as [<-|H]; [vm_compute; lia|]). destruct H.
Qed.
Lemma rank_other k : str_mem k ORDERED_KEYWORDS_START = false ->
  str_mem k ORDERED_KEYWORDS_END = false -> rank k = 7.
Proof.
  unfold str_mem, ORDERED_KEYWORDS_START, ORDERED_KEYWORDS_END, rank. cbn [existsb].
  rewrite !orb_false_iff. intros (-> & -> & -> & -> & -> & -> & -> & _) (-> & -> & _). reflexivity.
Qed.

Lemma SSorted_start : StronglySorted before ORDERED_KEYWORDS_START.
Proof.
  unfold ORDERED_KEYWORDS_START. repeat constructor; left; vm_compute; lia.
Qed.
Lemma SSorted_end : StronglySorted before ORDERED_KEYWORDS_END.
Proof.
  unfold ORDERED_KEYWORDS_END. repeat constructor; left; vm_compute; lia.
Qed.

Lemma pick_keys {A} k (m : list (string * A)) L :
  In k (map fst (flat_map (fun k => match mget k m with Some v => [(k, v)] | None => [] end) L)) ->
  str_mem k L = true.
Proof.
  intros Hy. apply str_mem_In.
  apply in_map_iff in Hy as ([k' v'] & <- & Hy). apply in_flat_map in Hy as (k2 & H1 & H2).
  destruct (mget k2 m); [|destruct H2]. destruct H2 as [H2|[]]. injection H2 as <- _. exact H1.
Qed.

Lemma SS_same_rank ks :
  (forall k, In k ks -> rank k = 7) -> StronglySorted byte_order ks -> StronglySorted before ks.
Proof.
  intros H. induction 1 as [|k ks HS IH HF]; [constructor|]. constructor.
  - apply IH. intros k' Hk'. apply H. now right.
  - rewrite Forall_forall in *. intros x Hx. right. split; [|now apply HF].
    rewrite (H k) by (now left). rewrite (H x) by (now right). reflexivity.
Qed.

Lemma emission_sorted {A} (m : list (string * A)) :
  sorted_keys (map fst m) = true -> StronglySorted before (map fst (emission_order m)).
Proof.
  intros HS. unfold emission_order. rewrite !map_app.
  assert (forall k, In k (map fst (filter (fun kv : string * A =>
            negb (str_mem (fst kv) ORDERED_KEYWORDS_START) &&
            negb (str_mem (fst kv) ORDERED_KEYWORDS_END)) m)) -> rank k = 7) as HM.
  { intros k Hk. apply in_map_iff in Hk as (kv & <- & Hk). apply filter_In in Hk as [_ Hk].
    rewrite andb_true_iff, !negb_true_iff in Hk. destruct Hk. now apply rank_other. }
  apply SSorted_app; [apply SSorted_pick, SSorted_start| |].
  - apply SSorted_app; [|apply SSorted_pick, SSorted_end|].
    + apply SS_same_rank; [exact HM|]. apply SSorted_filter. now apply sorted_SS.
    + intros x y Hx Hy. left. rewrite (HM x Hx). apply pick_keys, rank_end in Hy. exact Hy.
  - intros x y Hx Hy. left. apply pick_keys, rank_start in Hx.
    apply in_app_iff in Hy as [Hy|Hy].
    + rewrite (HM y Hy). exact Hx.
    + apply pick_keys, rank_end in Hy. lia.
Qed.

Lemma before_irrefl k : ~ before k k.
Proof.
  unfold before. rewrite scmp_refl. intros [H|[_ H]]; [lia|discriminate].
Qed.

Lemma SS_NoDup (R : string -> string -> Prop) l :
  (forall k, ~ R k k) -> StronglySorted R l -> NoDup l.
Proof.
  intros HR. induction 1 as [|k l HS IH HF]; constructor; auto.
  intros H. rewrite Forall_forall in HF. exact (HR k (HF k H)).
Qed.

Lemma parse_wf v : wf v = true -> parse v = v.
Proof.
  induction v as [|b|n|s|l IH|m IH] using json_ind'; cbn [parse]; auto; intros W.
  - f_equal. apply wf_arr in W. rewrite Forall_forall in *.
    rewrite <- (map_id l) at 2. apply map_ext_in. intros x Hx. auto.
  - f_equal. apply wf_obj in W as [S F].
    assert (map (fun kv => (fst kv, parse (snd kv))) m = m) as ->.
    { rewrite <- (map_id m) at 2. apply map_ext_in. intros [k x] Hx. cbn.
      rewrite Forall_forall in *. f_equal. exact (IH _ Hx (F _ Hx)). }
    apply sorted_ext; [apply sorted_mk|exact S|].
    intros k. unfold mk. rewrite mget_mappend_NoDup by now apply sorted_NoDup. now destruct (mget k m).
Qed.

(** Parsing an object only depends on the lookups of duplicate-free entries. *)
Lemma parse_obj_lookup (out m : map_t) :
  NoDup (map fst out) -> sorted_keys (map fst m) = true ->
  (forall k, option_map parse (mget k out) = mget k m) ->
  parse (JObj out) = JObj m.
Proof.
  intros ND S H. cbn [parse]. f_equal. apply sorted_ext; [apply sorted_mk|exact S|].
  intros k. unfold mk. rewrite mget_mappend_NoDup.
  - rewrite (mget_map (fun _ x => parse x)). rewrite <- H. cbn. now destruct (mget k out).
  - rewrite (map_fst_map (fun kv => parse (snd kv))). exact ND.
Qed.

Lemma ser_parse v : forall nr, wf v = true -> parse (ser nr v) = v.
Proof.
  induction v as [|b|n|s|l IH|m IH] using json_ind'; intros nr W; try reflexivity.
  - cbn [ser parse]. f_equal. apply wf_arr in W. rewrite Forall_forall in *.
    rewrite map_map. rewrite <- (map_id l) at 2. apply map_ext_in. intros x Hx. auto.
  - apply wf_obj in W as [S F]. rewrite Forall_forall in *. cbn [ser]. destruct nr.
    + apply parse_obj_lookup; auto.
      * rewrite (map_fst_map (fun kv => ser false (snd kv))). now apply sorted_NoDup.
      * intros k. rewrite (mget_map (fun _ x => ser false x)).
        destruct (mget k m) eqn:E; [|reflexivity]. cbn. f_equal.
        apply mget_In in E. apply (IH (k, j) E). apply (F (k, j) E).
    + set (g := fun k x => if plain_key k then x else ser (no_reorder_key k) x).
      change (map _ m) with (map (fun kv : string * json => (fst kv, g (fst kv) (snd kv))) m).
      apply parse_obj_lookup; auto.
      * eapply SS_NoDup; [apply before_irrefl|]. apply emission_sorted.
        rewrite (map_fst_map (fun kv => g (fst kv) (snd kv))). exact S.
      * intros k. rewrite mget_emission, (mget_map g).
        destruct (mget k m) eqn:E; [|reflexivity]. cbn. f_equal.
        apply mget_In in E. unfold g. destruct (plain_key k).
        -- apply parse_wf, (F (k, j) E).
        -- apply (IH (k, j) E). apply (F (k, j) E).
Qed.

Lemma prefix_x k : starts_with_x k = true <-> exists r, k = "x-" ++ r.
Proof.
  unfold starts_with_x. split.
  - destruct k as [|a [|b r]]; try discriminate.
    rewrite andb_true_iff, !Ascii.eqb_eq. intros [-> ->]. exists r. reflexivity.
  - intros (r & ->). reflexivity.
Qed.

Lemma plain_key_spec k : plain_key k = true <-> data_keyword k.
Proof.
  unfold plain_key, data_keyword. rewrite !orb_true_iff, !String.eqb_eq, prefix_x. tauto.
Qed.

Lemma no_reorder_spec k : no_reorder_key k = true <-> schema_map_keyword k.
Proof.
  unfold no_reorder_key, schema_map_keyword. rewrite str_mem_In. cbn. intuition.
Qed.

Lemma data_not_schema_map k : data_keyword k -> schema_map_keyword k -> False.
Proof.
  intros [->|[->|(r & ->)]] H; unfold schema_map_keyword in H; cbn in H; intuition discriminate.
Qed.

Lemma ser_reads_well v : forall nr, wf v = true -> reads_well nr (ser nr v).
Proof.
  induction v as [|b|n|s|l IH|m IH] using json_ind'; intros nr W; try (cbn; constructor).
  - intros x Hx. apply in_map_iff in Hx as (y & <- & Hy). apply wf_arr in W.
    rewrite Forall_forall in *. auto.
  - apply wf_obj in W as [S F]. rewrite Forall_forall in *. cbn [ser]. destruct nr.
    + constructor.
      * rewrite (map_fst_map (fun kv => ser false (snd kv))). now apply sorted_SS.
      * intros k x Hx. apply in_map_iff in Hx as (kv & E & Hx). injection E as <- <-.
        apply (IH kv Hx), (F kv Hx).
    + set (g := fun k x => if plain_key k then x else ser (no_reorder_key k) x).
      change (map _ m) with (map (fun kv : string * json => (fst kv, g (fst kv) (snd kv))) m).
      assert (forall k x, In (k, x) (emission_order
                (map (fun kv : string * json => (fst kv, g (fst kv) (snd kv))) m)) ->
              exists y, x = g k y /\ In (k, y) m) as HI.
      { intros k x Hx. apply emission_In in Hx. apply in_map_iff in Hx as ([k' y] & E & Hx).
        injection E as <- <-. eauto. }
      constructor.
      * apply emission_sorted. rewrite (map_fst_map (fun kv => g (fst kv) (snd kv))). exact S.
      * intros k x Hx D. destruct (HI k x Hx) as (y & -> & Hy). unfold g.
        apply plain_key_spec in D. rewrite D. apply (F (k, y) Hy).
      * intros k x Hx D. destruct (HI k x Hx) as (y & -> & Hy). unfold g.
        destruct (plain_key k) eqn:P.
        { exfalso. apply plain_key_spec in P. eapply data_not_schema_map; eauto. }
        apply no_reorder_spec in D. rewrite D. apply (IH (k, y) Hy), (F (k, y) Hy).
      * intros k x Hx N1 N2. destruct (HI k x Hx) as (y & -> & Hy). unfold g.
        destruct (plain_key k) eqn:P; [apply plain_key_spec in P; tauto|].
        destruct (no_reorder_key k) eqn:P2; [apply no_reorder_spec in P2; tauto|].
        apply (IH (k, y) Hy), (F (k, y) Hy).
Qed.
