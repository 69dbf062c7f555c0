(** Property C49: schemars attributes override serde attributes. *)
From Coq Require Import String Ascii List Bool Lia.
From Verif Require Import Json Transform PrivateFlatten Attrs.
Import ListNotations.
Open Scope string_scope.

(** ** Specification *)
(** The items of the attributes with a given path *)
Definition items_of (path : string) (attrs : list attribute) (i : item) : Prop :=
  exists a, In a attrs /\ a_path a = path /\ In i (a_items a).
(** `#[schemars(k ...)]` is present *)
Definition sets (attrs : list attribute) (k : string) : Prop :=
  exists i, items_of "schemars" attrs i /\ i_not i = false /\ i_keyword i = Some k.
(** `#[schemars(!k)]` is present *)
Definition unsets (attrs : list attribute) (k : string) : Prop :=
  exists i, items_of "schemars" attrs i /\ i_not i = true /\ i_keyword i = Some k.
(** Keywords serde's attribute parser is asked to understand *)
Definition understood (k : string) : Prop := In k serde_keywords.
(** `with` and `serialize_with` of #[schemars] are not serde's business *)
Definition copied (k : string) : Prop := understood k /\ k <> "with" /\ k <> "serialize_with".

(** ** Proofs *)
Lemma meta_items_In path attrs i : In i (meta_items path attrs) <-> items_of path attrs i.
Proof.
  unfold meta_items, items_of. rewrite in_flat_map. split.
  - intros (a & Ha & Hi). destruct (String.eqb_spec (a_path a) path); [|destruct Hi]. eauto.
  - intros (a & Ha & Hp & Hi). exists a. split; [exact Ha|]. rewrite Hp, String.eqb_refl. exact Hi.
Qed.

Lemma copied_spec k : mem k parsed_by_serde = true <-> copied k.
Proof.
  rewrite mem_In. unfold copied, understood. cbn. split.
  - intros H. repeat (destruct H as [<-|H]; [repeat split; try discriminate; auto 22|]). destruct H.
  - intros (H & H1 & H2). repeat (destruct H as [<-|H]; [auto 20|]); try congruence. destruct H.
Qed.

(** What the loop over the schemars items leaves *)
Definition loop_ok (l : list item) (g : merge) : Prop :=
  (forall i, In i (g_effective g) <-> In i l /\ i_not i = false /\ exists k, i_keyword i = Some k /\ copied k)
  /\ (forall k, In k (g_unset g) <-> exists i, In i l /\ i_not i = true /\ i_keyword i = Some k)
  /\ (forall k, In k (g_names g) <-> copied k /\ exists i, In i l /\ i_not i = false /\ i_keyword i = Some k)
  /\ NoDup (g_unset g)
  /\ (forall e, In e (g_errors g) -> exists k, e = Duplicate k)
  /\ (forall k, In (Duplicate k) (g_errors g) <->
        exists l1 i1 l2 i2 l3, l = (l1 ++ i1 :: l2 ++ i2 :: l3)%list
          /\ i_not i1 = true /\ i_keyword i1 = Some k /\ i_not i2 = true /\ i_keyword i2 = Some k).

Lemma snoc_split {A} (l : list A) i l1 i1 l2 i2 l3 : (l ++ [i])%list = (l1 ++ i1 :: l2 ++ i2 :: l3)%list ->
  (exists l3', l = (l1 ++ i1 :: l2 ++ i2 :: l3')%list) \/ (i2 = i /\ l = (l1 ++ i1 :: l2)%list).
Proof.
  intros H. destruct l3 as [|z l3 _] using rev_ind.
  - right. replace (l1 ++ i1 :: l2 ++ [i2])%list with ((l1 ++ i1 :: l2) ++ [i2])%list in H by (now rewrite <- app_assoc).
    apply app_inj_tail in H as [-> ->]. auto.
  - left. exists l3. replace (l1 ++ i1 :: l2 ++ i2 :: l3 ++ [z])%list with ((l1 ++ i1 :: l2 ++ i2 :: l3) ++ [z])%list in H.
    + now apply app_inj_tail in H as [-> _].
    + rewrite <- app_assoc. cbn. f_equal. f_equal. now rewrite <- app_assoc.
Qed.

Lemma loop_step l g i : loop_ok l g -> loop_ok (l ++ [i]) (schemars_step g i).
Proof.
  intros (H1 & H2 & H3 & HN & HE & HD).
  assert (dup_old : forall k, In (Duplicate k) (g_errors g) ->
     exists l1 i1 l2 i2 l3, (l ++ [i])%list = (l1 ++ i1 :: l2 ++ i2 :: l3)%list
          /\ i_not i1 = true /\ i_keyword i1 = Some k /\ i_not i2 = true /\ i_keyword i2 = Some k).
  { intros k Hk. apply HD in Hk as (l1 & i1 & l2 & i2 & l3 & -> & ?).
    exists l1, i1, l2, i2, (l3 ++ [i])%list. split; [|assumption]. rewrite <- app_assoc. cbn. now rewrite <- app_assoc. }
  assert (dup_new : forall k, (i_not i = false \/ i_keyword i <> Some k) ->
     (exists l1 i1 l2 i2 l3, (l ++ [i])%list = (l1 ++ i1 :: l2 ++ i2 :: l3)%list
          /\ i_not i1 = true /\ i_keyword i1 = Some k /\ i_not i2 = true /\ i_keyword i2 = Some k) ->
     In (Duplicate k) (g_errors g)).
  { intros k Hi (l1 & i1 & l2 & i2 & l3 & He & A1 & A2 & A3 & A4). apply HD.
    destruct (snoc_split _ _ _ _ _ _ _ He) as [(l3' & ->)|(-> & _)]; [|destruct Hi; congruence].
    exists l1, i1, l2, i2, l3'. auto. }
  assert (INL : forall (Q : item -> Prop), (exists j, In j (l ++ [i]) /\ Q j) <-> (exists j, In j l /\ Q j) \/ Q i).
  { intros Q. split.
    - intros (j & Hj & HQ). apply in_app_iff in Hj as [Hj|[<-|[]]]; eauto.
    - intros [(j & Hj & HQ)|HQ]; [exists j|exists i]; rewrite in_app_iff; cbn; auto. }
  assert (KE : ~ (i_not i = false /\ exists k, i_keyword i = Some k /\ copied k) ->
     forall j, In j (g_effective g) <-> In j (l ++ [i]) /\ i_not j = false /\ exists k, i_keyword j = Some k /\ copied k).
  { intros Hi j. rewrite H1, in_app_iff. cbn. split; [tauto|]. intros ([Hj|[<-|[]]] & HQ); tauto. }
  assert (KU : (forall k, ~ (i_not i = true /\ i_keyword i = Some k)) ->
     forall k, In k (g_unset g) <-> exists j, In j (l ++ [i]) /\ i_not j = true /\ i_keyword j = Some k).
  { intros Hi k. rewrite H2, INL. specialize (Hi k). tauto. }
  assert (KN : ~ (i_not i = false /\ exists k, i_keyword i = Some k /\ copied k) ->
     forall k, In k (g_names g) <-> copied k /\ exists j, In j (l ++ [i]) /\ i_not j = false /\ i_keyword j = Some k).
  { intros Hi k. rewrite H3, INL. split; [tauto|]. intros (Hc & [H|[A B]]); [auto|]. exfalso. apply Hi. eauto. }
  unfold schemars_step. destruct (i_keyword i) as [k|] eqn:Ek.
  2:{ refine (conj (KE _) (conj (KU _) (conj (KN _) (conj HN (conj HE _))))).
      - intros (_ & k & ? & _). discriminate.
      - intros k (_ & ?). discriminate.
      - intros (_ & k & ? & _). discriminate.
      - intros k. split; [apply dup_old|]. apply dup_new. right. discriminate. }
  destruct (i_not i) eqn:En.
  - assert (KE' := KE ltac:(intros [? _]; discriminate)). assert (KN' := KN ltac:(intros [? _]; discriminate)).
    destruct (mem k (g_unset g)) eqn:Em.
    + apply mem_In in Em. refine (conj KE' (conj _ (conj KN' (conj HN (conj _ _))))); cbn [g_effective g_unset g_names g_errors].
      * intros k'. rewrite H2, INL. split; [tauto|]. intros [H|[_ Hk]]; [exact H|]. rewrite Ek in Hk. injection Hk as <-. now apply H2.
      * intros e He. apply in_app_iff in He as [He|[<-|[]]]; eauto.
      * intros k0. split.
        -- intros Hk. apply in_app_iff in Hk as [Hk|[[= <-]|[]]]; [now apply dup_old|].
           apply H2 in Em as (j & Hj & A & B). apply in_split in Hj as (l1 & l2 & ->).
           exists l1, j, l2, i, []. split; [now rewrite <- app_assoc|auto].
        -- intros Hk. rewrite in_app_iff. destruct (string_dec k k0) as [->|Hne]; [right; now left|]. left.
           apply dup_new; [right; congruence|exact Hk].
    + assert (Em' : ~ In k (g_unset g)) by (rewrite <- mem_In; congruence).
      refine (conj KE' (conj _ (conj KN' (conj _ (conj HE _))))); cbn [g_effective g_unset g_names g_errors].
      * intros k'. rewrite INL, <- H2, in_app_iff. cbn. split; [intros [H|[<-|[]]]; auto|].
        intros [H|[_ Hk]]; [auto|]. rewrite Ek in Hk. injection Hk as <-. auto.
      * apply NoDup_rev in HN. rewrite <- (rev_involutive (g_unset g ++ [k])%list). apply NoDup_rev.
        rewrite rev_app_distr. cbn. constructor; [now rewrite <- in_rev|exact HN].
      * intros k0. split; [apply dup_old|].
        intros Hk. destruct (string_dec k k0) as [->|Hne]; [|apply dup_new; [right; congruence|exact Hk]].
        exfalso. apply Em'. apply H2. destruct Hk as (l1 & i1 & l2 & i2 & l3 & He & A1 & A2 & A3 & A4).
        destruct (snoc_split _ _ _ _ _ _ _ He) as [(l3' & ->)|(-> & ->)]; exists i1; rewrite in_app_iff; cbn; auto.
  - assert (KU' := KU ltac:(intros ? [? _]; discriminate)).
    assert (KD : forall k, In (Duplicate k) (g_errors g) <->
        exists l1 i1 l2 i2 l3, (l ++ [i])%list = (l1 ++ i1 :: l2 ++ i2 :: l3)%list
          /\ i_not i1 = true /\ i_keyword i1 = Some k /\ i_not i2 = true /\ i_keyword i2 = Some k).
    { intros k0. split; [apply dup_old|]. apply dup_new. auto. }
    destruct (mem k parsed_by_serde) eqn:Em.
    + apply copied_spec in Em.
      refine (conj _ (conj KU' (conj _ (conj HN (conj HE KD))))); cbn [g_effective g_unset g_names g_errors].
      * intros j. rewrite !in_app_iff, H1. cbn. split.
        -- intros [H|[<-|[]]]; [tauto|]. split; [auto|]. split; [exact En|]. exists k. auto.
        -- intros ([H|[<-|[]]] & HQ); auto.
      * intros k'. rewrite INL, in_app_iff, H3. cbn. split.
        -- intros [H|[<-|[]]]; [tauto|]. auto.
        -- intros (Hc & [H|[_ Hk]]); [auto|]. rewrite Ek in Hk. injection Hk as <-. auto.
    + assert (Em' : ~ copied k) by (rewrite <- copied_spec; congruence).
      refine (conj (KE _) (conj KU' (conj (KN _) (conj HN (conj HE KD))))).
      * intros (_ & k' & [= <-] & ?). contradiction.
      * intros (_ & k' & [= <-] & ?). contradiction.
Qed.

Lemma loop_all l : loop_ok l (fold_left schemars_step l (Merge [] [] [] [])).
Proof.
  assert (HG : forall l2 l1 g, loop_ok l1 g -> loop_ok (l1 ++ l2) (fold_left schemars_step l2 g)).
  { induction l2 as [|i l2 IH]; intros l1 g H; [now rewrite app_nil_r|]. cbn [fold_left].
    replace (l1 ++ i :: l2)%list with ((l1 ++ [i]) ++ l2)%list by now rewrite <- app_assoc.
    apply IH. now apply loop_step. }
  apply (HG l []). refine (conj _ (conj _ (conj _ (conj _ (conj _ _))))); cbn [g_effective g_unset g_names g_errors In].
  - tauto.
  - intros k. split; [tauto|]. intros (i & [] & _).
  - intros k. split; [tauto|]. intros (_ & i & [] & _).
  - constructor.
  - intros e [].
  - intros k. split; [tauto|]. intros (l1 & i1 & l2 & i2 & l3 & He & _). destruct l1; discriminate.
Qed.

Lemma others_items attrs i :
  In i (meta_items "schemars" (filter (fun a => negb (String.eqb (a_path a) "serde")) attrs)) <-> items_of "schemars" attrs i.
Proof.
  rewrite meta_items_In. unfold items_of. split; intros (a & Ha & Hp & Hi); exists a.
  - apply filter_In in Ha as [Ha _]. auto.
  - rewrite filter_In, Hp. auto.
Qed.
Lemma serde_items attrs i :
  In i (meta_items "serde" (filter (fun a => String.eqb (a_path a) "serde") attrs)) <-> items_of "serde" attrs i.
Proof.
  rewrite meta_items_In. unfold items_of. split; intros (a & Ha & Hp & Hi); exists a.
  - apply filter_In in Ha as [Ha _]. auto.
  - rewrite filter_In, Hp. auto.
Qed.

Definition effective (attrs : list attribute) (i : item) : Prop := items_of "serde" (fst (process_attrs attrs)) i.

Lemma effective_In attrs i : effective attrs i <->
  let others := filter (fun a => negb (String.eqb (a_path a) "serde")) attrs in
  let g := fold_left schemars_step (meta_items "schemars" others) (Merge [] [] [] []) in
  In i (g_effective g) \/
  In i (filter (serde_kept (add_skip (g_names g)) (g_unset g))
          (meta_items "serde" (filter (fun a => String.eqb (a_path a) "serde") attrs))).
Proof.
  cbn zeta. unfold effective, process_attrs. cbn [fst].
  set (g := fold_left _ _ _). set (kept := filter (serde_kept _ _) _). rewrite <- in_app_iff.
  unfold items_of. split.
  - intros (a & Ha & Hp & Hi). apply in_app_iff in Ha as [Ha|Ha].
    + apply filter_In in Ha as [_ Ha]. rewrite Hp in Ha. discriminate.
    + destruct (g_effective g ++ kept)%list; [destruct Ha|]. destruct Ha as [<-|[]]. exact Hi.
  - intros Hi. destruct (g_effective g ++ kept)%list as [|x l] eqn:El; [destruct Hi|].
    exists (Attribute "serde" (x :: l) ""). rewrite in_app_iff. cbn [a_path a_items]. split; [right; now left|auto].
Qed.

Lemma add_skip_In names k : In k (add_skip names) <->
  In k names \/ (In "skip" names /\ (k = "skip_serializing" \/ k = "skip_deserializing")).
Proof.
  unfold add_skip. destruct (mem "skip" names) eqn:Em.
  - apply mem_In in Em. rewrite in_app_iff. cbn. intuition congruence.
  - assert (~ In "skip" names) by (rewrite <- mem_In; congruence). intuition.
Qed.

(** ** Theorems *)
(** An item is effective iff it is a copied schemars item, or a serde item that is understood and
    neither overridden nor unset ("bound" never is; "skip" also overrides its two halves). *)
Theorem C49_effective_items : forall attrs i,
  effective attrs i <->
  (items_of "schemars" attrs i /\ i_not i = false /\ exists k, i_keyword i = Some k /\ copied k)
  \/ (items_of "serde" attrs i /\ exists k, i_keyword i = Some k /\ understood k /\ k <> "bound"
      /\ ~ (copied k /\ sets attrs k) /\ ~ unsets attrs k
      /\ ~ ((k = "skip_serializing" \/ k = "skip_deserializing") /\ sets attrs "skip")).
Proof.
  intros attrs i. rewrite effective_In. cbn zeta.
  destruct (loop_all (meta_items "schemars" (filter (fun a => negb (String.eqb (a_path a) "serde")) attrs)))
    as (H1 & H2 & H3 & _).
  set (g := fold_left _ _ _) in *. rewrite H1, others_items, filter_In, serde_items.
  assert (HU : forall k, In k (g_unset g) <-> unsets attrs k).
  { intros k. rewrite H2. unfold unsets. split; intros (j & Hj & ?); exists j; (split; [now apply others_items|auto]). }
  assert (HNm : forall k, In k (g_names g) <-> copied k /\ sets attrs k).
  { intros k. rewrite H3. unfold sets.
    split; intros (Hc & j & Hj & ?); (split; [exact Hc|]); exists j; (split; [now apply others_items|auto]). }
  assert (HSk : copied "skip") by (apply copied_spec; reflexivity).
  assert (HK : serde_kept (add_skip (g_names g)) (g_unset g) i = true <->
     exists k, i_keyword i = Some k /\ understood k /\ k <> "bound"
      /\ ~ (copied k /\ sets attrs k) /\ ~ unsets attrs k
      /\ ~ ((k = "skip_serializing" \/ k = "skip_deserializing") /\ sets attrs "skip")).
  { unfold serde_kept. destruct (i_keyword i) as [k|]; [|split; [discriminate|intros (? & ? & _); discriminate]].
    rewrite !andb_true_iff, !negb_true_iff, !mem_In.
    assert (HF : forall l, mem k l = false <-> ~ In k l).
    { intros l. rewrite <- mem_In. destruct (mem k l); split; congruence. }
    rewrite !HF, add_skip_In, !HNm, HU, String.eqb_neq. unfold understood. split.
    - intros (((A & B) & C) & D). exists k. split; [reflexivity|]. tauto.
    - intros (k' & [= <-] & A & B & C & D & G). tauto. }
  rewrite HK. tauto.
Qed.
Print Assumptions C49_effective_items.

(** A schemars item overrides every serde item with the same keyword. *)
Theorem C49_override : forall attrs k i,
  copied k -> sets attrs k -> effective attrs i -> i_keyword i = Some k ->
  items_of "schemars" attrs i /\ i_not i = false.
Proof.
  intros attrs k i Hc Hs He Hk. apply C49_effective_items in He as [(A & B & _)|(_ & k' & Hk' & _ & _ & HN & _)]; [auto|].
  rewrite Hk in Hk'. injection Hk' as <-. tauto.
Qed.
Print Assumptions C49_override.

(** Unsetting removes the serde items with that keyword. *)
Theorem C49_unset : forall attrs k i,
  unsets attrs k -> ~ sets attrs k -> effective attrs i -> i_keyword i <> Some k.
Proof.
  intros attrs k i Hu Hs He Hk.
  apply C49_effective_items in He as [(A & B & _)|(_ & k' & Hk' & _ & _ & _ & HN & _)].
  - apply Hs. exists i. auto.
  - rewrite Hk in Hk'. injection Hk' as <-. contradiction.
Qed.
Print Assumptions C49_unset.

(** serde items that are understood and not mentioned by schemars stay. *)
Theorem C49_inherit : forall attrs k i,
  items_of "serde" attrs i -> i_keyword i = Some k -> understood k -> k <> "bound" ->
  ~ sets attrs k -> ~ sets attrs "skip" -> ~ unsets attrs k -> effective attrs i.
Proof.
  intros attrs k i Hi Hk Hu Hb Hs Hsk Hn. apply C49_effective_items. right. split; [exact Hi|].
  exists k. repeat split; auto; tauto.
Qed.
Print Assumptions C49_inherit.

(** `with`/`serialize_with` of serde are never overridden by the schemars ones. *)
Theorem C49_with_kept : forall attrs k i,
  items_of "serde" attrs i -> i_keyword i = Some k -> k = "with" \/ k = "serialize_with" ->
  ~ unsets attrs k -> effective attrs i.
Proof.
  intros attrs k i Hi Hk HW Hn. apply C49_effective_items. right. split; [exact Hi|]. exists k. split; [exact Hk|].
  assert (understood k) by (destruct HW as [->| ->]; cbn; auto 30).
  repeat split; auto.
  - destruct HW; congruence.
  - intros ((_ & A & B) & _). tauto.
  - intros ([?|?] & _); destruct HW; congruence.
Qed.
Print Assumptions C49_with_kept.

(** All other attributes stay as they are, in order. *)
Theorem C49_other_attributes : forall attrs,
  filter (fun a => negb (String.eqb (a_path a) "serde")) (fst (process_attrs attrs))
  = filter (fun a => negb (String.eqb (a_path a) "serde")) attrs.
Proof.
  intros attrs. unfold process_attrs. cbn [fst]. rewrite filter_app.
  match goal with |- (?a ++ ?b)%list = _ => assert (Hb : b = []) end.
  { destruct (_ ++ _)%list; reflexivity. }
  rewrite Hb, app_nil_r. generalize attrs. clear. intros l. induction l as [|a l IH]; [reflexivity|]. cbn.
  destruct (negb (String.eqb (a_path a) "serde")) eqn:Ea; [|exact IH]. cbn. rewrite Ea. now f_equal.
Qed.
Print Assumptions C49_other_attributes.

(** Errors are reported exactly for a repeated `!k`, for `k` together with `!k`, and for `!k`
    without a serde item `k`. *)
Theorem C49_errors : forall attrs,
  snd (process_attrs attrs) = [] <->
  (forall k l1 i1 l2 i2 l3,
     meta_items "schemars" (filter (fun a => negb (String.eqb (a_path a) "serde")) attrs) = (l1 ++ i1 :: l2 ++ i2 :: l3)%list ->
     i_not i1 = true -> i_keyword i1 = Some k -> i_not i2 = true -> i_keyword i2 <> Some k)
  /\ (forall k, unsets attrs k -> ~ (copied k /\ sets attrs k))
  /\ (forall k, unsets attrs k -> exists i, items_of "serde" attrs i /\ i_keyword i = Some k).
Proof.
  intros attrs. unfold process_attrs. cbn [snd].
  destruct (loop_all (meta_items "schemars" (filter (fun a => negb (String.eqb (a_path a) "serde")) attrs)))
    as (H1 & H2 & H3 & _ & HE & HD).
  set (g := fold_left _ _ _) in *.
  assert (HU : forall k, In k (g_unset g) <-> unsets attrs k).
  { intros k. rewrite H2. unfold unsets. split; intros (j & Hj & ?); exists j; (split; [now apply others_items|auto]). }
  assert (HNm : forall k, In k (g_names g) <-> copied k /\ sets attrs k).
  { intros k. rewrite H3. unfold sets.
    split; intros (Hc & j & Hj & ?); (split; [exact Hc|]); exists j; (split; [now apply others_items|auto]). }
  assert (HSn : forall k, In k (serde_names (meta_items "serde" (filter (fun a => String.eqb (a_path a) "serde") attrs)))
    <-> exists i, items_of "serde" attrs i /\ i_keyword i = Some k).
  { intros k. unfold serde_names. rewrite in_flat_map. split; intros (i & Hi & Hk); exists i.
    - split; [now apply serde_items|]. destruct (i_keyword i); [|destruct Hk]. destruct Hk as [<-|[]]. reflexivity.
    - split; [now apply serde_items|]. rewrite Hk. now left. }
  assert (NIL : forall {A B} (f : A -> B) (p : A -> bool) l, map f (filter p l) = [] <-> forall x, In x l -> p x = false).
  { intros A B f p l. split.
    - intros H x Hx. destruct (p x) eqn:Ex; [|reflexivity]. assert (In x (filter p l)) by (apply filter_In; auto).
      destruct (filter p l); [contradiction|discriminate].
    - intros H. induction l as [|x l IH]; [reflexivity|]. cbn. rewrite (H x) by now left. apply IH. intros; apply H; now right. }
  split.
  - intros H. apply app_eq_nil in H as [He H]. apply app_eq_nil in H as [Hb Hu]. split; [|split].
    + intros k l1 i1 l2 i2 l3 Hl A B C D. assert (Hin : In (Duplicate k) (g_errors g)) by (apply HD; eauto 10).
      rewrite He in Hin. destruct Hin.
    + intros k Hk Hs. apply HU in Hk. apply HNm in Hs. apply mem_In in Hs. apply NIL with (x := k) in Hb; [congruence|exact Hk].
    + intros k Hk. apply HU in Hk. apply NIL with (x := k) in Hu; [|exact Hk]. apply negb_false_iff in Hu.
      apply HSn. now apply mem_In.
  - intros (A & B & C).
    assert (He : g_errors g = []).
    { destruct (g_errors g) as [|e es] eqn:Eg; [reflexivity|]. destruct (HE e (or_introl eq_refl)) as (k & ->).
      destruct (proj1 (HD k) (or_introl eq_refl)) as (l1 & i1 & l2 & i2 & l3 & Hl & a & b & c & d).
      exfalso. eapply A; eauto. }
    rewrite He. cbn [app]. rewrite (proj2 (NIL _ _ Both _ (g_unset g))), (proj2 (NIL _ _ Useless _ (g_unset g))).
    + reflexivity.
    + intros k Hk. apply negb_false_iff, mem_In, HSn, C. now apply HU.
    + intros k Hk. apply HU in Hk. destruct (mem k (g_names g)) eqn:Em; [|reflexivity]. apply mem_In, HNm in Em.
      exfalso. eapply B; eauto.
Qed.
Print Assumptions C49_errors.

(** Merging again changes nothing. *)
Theorem C49_idempotent : forall attrs,
  fst (process_attrs (fst (process_attrs attrs))) = fst (process_attrs attrs).
Proof.
  intros attrs. pose proof (C49_other_attributes attrs) as HO.
  assert (HX : exists l, fst (process_attrs attrs)
     = (filter (fun a => negb (String.eqb (a_path a) "serde")) attrs
        ++ match l with [] => [] | _ => [Attribute "serde" l ""] end)%list
     /\ l = (let others := filter (fun a => negb (String.eqb (a_path a) "serde")) attrs in
             let g := fold_left schemars_step (meta_items "schemars" others) (Merge [] [] [] []) in
             g_effective g ++ filter (serde_kept (add_skip (g_names g)) (g_unset g))
                (meta_items "serde" (filter (fun a => String.eqb (a_path a) "serde") attrs)))%list).
  { eexists. split; reflexivity. }
  destruct HX as (l & HX & Hl).
  unfold process_attrs at 1. cbn [fst]. rewrite HO.
  cbn zeta in Hl. set (others := filter (fun a => negb (String.eqb (a_path a) "serde")) attrs) in *.
  pose proof (loop_all (meta_items "schemars" others)) as (H1 & _ & H3 & _).
  set (g := fold_left schemars_step (meta_items "schemars" others) (Merge [] [] [] [])) in *.
  assert (HS : meta_items "serde" (filter (fun a => String.eqb (a_path a) "serde") (fst (process_attrs attrs))) = l).
  { rewrite HX, filter_app.
    assert (Hnil : filter (fun a => String.eqb (a_path a) "serde") others = []).
    { unfold others. generalize attrs. clear. intros a. induction a as [|x a IH]; [reflexivity|]. cbn.
      destruct (String.eqb (a_path x) "serde") eqn:Ex; cbn; [exact IH|]. now rewrite Ex. }
    rewrite Hnil. destruct l; [reflexivity|]. cbn. now rewrite app_nil_r. }
  rewrite HS, HX. f_equal.
  assert (HE : (g_effective g ++ filter (serde_kept (add_skip (g_names g)) (g_unset g)) l)%list = l).
  { rewrite Hl at 1. rewrite filter_app.
    assert (Hnil : filter (serde_kept (add_skip (g_names g)) (g_unset g)) (g_effective g) = []).
    { assert (HA : forall x, In x (g_effective g) -> serde_kept (add_skip (g_names g)) (g_unset g) x = false).
      { intros x Hx. apply H1 in Hx as (Hx & Hn & k & Hk & Hc). unfold serde_kept. rewrite Hk.
        assert (Hm : mem k (add_skip (g_names g)) = true).
        { apply mem_In, add_skip_In. left. apply H3. split; [exact Hc|]. eauto. }
        now rewrite Hm. }
      clear -HA. induction (g_effective g) as [|x t IH]; [reflexivity|]. cbn. rewrite HA by now left. apply IH.
      intros; apply HA; now right. }
    rewrite Hnil. cbn [app]. rewrite Hl. f_equal.
    generalize (meta_items "serde" (filter (fun a => String.eqb (a_path a) "serde") attrs)). clear.
    intros t. induction t as [|x t IH]; [reflexivity|]. cbn.
    destruct (serde_kept (add_skip (g_names g)) (g_unset g) x) eqn:Ex; cbn; [rewrite Ex; now f_equal|exact IH]. }
  rewrite HE. reflexivity.
Qed.
Print Assumptions C49_idempotent.

(** ** Example: the one in the unit test, and more *)
Definition it (k v : string) : item := Item false (Some k) v.
Example C49_example :
  process_attrs
    [Attribute "serde" [it "rename" "ser"; it "rename_all" "camel"; it "from" "T"] "";
     Attribute "serde" [it "default" ""; it "unknown" ""; it "bound" "x"] "";
     Attribute "schemars" [it "rename" "o"; it "other" ""; Item true (Some "from") ""; it "skip" ""] "";
     Attribute "misc" [] "tokens"; Attribute "serde" [it "skip_serializing" ""] ""]
  = ([Attribute "schemars" [it "rename" "o"; it "other" ""; Item true (Some "from") ""; it "skip" ""] "";
      Attribute "misc" [] "tokens";
      Attribute "serde" [it "rename" "o"; it "skip" ""; it "rename_all" "camel"; it "default" ""] ""], []).
Proof. reflexivity. Qed.
Example C49_nontrivial :
  let attrs := [Attribute "serde" [it "rename" "a"; it "from" "T"] ""; Attribute "schemars" [it "rename" "b"; Item true (Some "from") ""] ""] in
  sets attrs "rename" /\ unsets attrs "from" /\ ~ sets attrs "from" /\ copied "rename".
Proof.
  cbn zeta. split; [|split; [|split]].
  - exists (it "rename" "b"). split; [|auto]. eexists. split; [right; left; reflexivity|]. cbn. auto.
  - exists (Item true (Some "from") ""). split; [|auto]. eexists. split; [right; left; reflexivity|]. cbn. auto.
  - intros (i & (a & [<-|[<-|[]]] & Hp & Hi) & Hn & Hk); [discriminate|]. cbn in Hi.
    destruct Hi as [<-|[<-|[]]]; discriminate.
  - apply copied_spec. reflexivity.
Qed.
