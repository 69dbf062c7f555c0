(** transform_subschemas with any stateful callback, and RecursiveTransform. *)
From Coq Require Import String Ascii List ZArith Bool Lia Arith.
From Verif Require Import Json JsonFacts SchemaApi Transform TransformSpec TransformProofs.
Import ListNotations.
Open Scope string_scope.

(** ** Specification *)
(** [chain t st xs ys st']: the transform, in state [st], is called on the schemas [xs] one after
    the other, turns them into [ys] and ends in state [st']. *)
Inductive chain {St} (t : json -> St -> json * St) : St -> list json -> list json -> St -> Prop :=
| ch_nil st : chain t st [] [] st
| ch_cons st x y st1 xs ys st2 :
    t x st = (y, st1) -> chain t st1 xs ys st2 -> chain t st (x :: xs) (y :: ys) st2.

(** [repl v v' xs ys]: [v'] is [v] with the subschemas [xs], in order, replaced by [ys]. *)
Inductive repl : json -> json -> list json -> list json -> Prop :=
| rp_schema x y : is_schema x = true -> repl x y [x] [y]
| rp_other v : is_schema v = false -> repl v v [] [].
Inductive repl_list : list json -> list json -> list json -> list json -> Prop :=
| rl_nil : repl_list [] [] [] []
| rl_cons v v' l l' xs ys xs' ys' :
    repl v v' xs ys -> repl_list l l' xs' ys' ->
    repl_list (v :: l) (v' :: l') (xs ++ xs') (ys ++ ys').
Inductive repl_named : map_t -> map_t -> list json -> list json -> Prop :=
| rn_nil : repl_named [] [] [] []
| rn_cons n v v' l l' xs ys xs' ys' :
    repl v v' xs ys -> repl_named l l' xs' ys' ->
    repl_named ((n, v) :: l) ((n, v') :: l') (xs ++ xs') (ys ++ ys').
(** The value of the keyword [k]. *)
Inductive repl_kw (k : string) : json -> json -> list json -> list json -> Prop :=
| rk_one v v' xs ys : In k kw_one -> (forall l, ~ (In k kw_list /\ v = JArr l)) ->
    repl v v' xs ys -> repl_kw k v v' xs ys
| rk_list l l' xs ys : In k kw_list -> repl_list l l' xs ys -> repl_kw k (JArr l) (JArr l') xs ys
| rk_map p p' xs ys : In k kw_map -> repl_named p p' xs ys -> repl_kw k (JObj p) (JObj p') xs ys
| rk_same v : ~ In k kw_one -> (forall l, ~ (In k kw_list /\ v = JArr l)) ->
    (forall p, ~ (In k kw_map /\ v = JObj p)) -> repl_kw k v v [] [].
Inductive repl_map : map_t -> map_t -> list json -> list json -> Prop :=
| rm_nil : repl_map [] [] [] []
| rm_cons k v v' m m' xs ys xs' ys' :
    repl_kw k v v' xs ys -> repl_map m m' xs' ys' ->
    repl_map ((k, v) :: m) ((k, v') :: m') (xs ++ xs') (ys ++ ys').

(** ** Proof *)
Section Any.
Context {St : Type} (t : tr St).

Lemma chain_app st1 st2 st3 xs ys xs' ys' :
  chain t st1 xs ys st2 -> chain t st2 xs' ys' st3 -> chain t st1 (xs ++ xs') (ys ++ ys') st3.
Proof. induction 1; cbn; auto. intros. econstructor; eauto. Qed.

Lemma try_sub_repl v st v' st' : try_sub t v st = (v', st') ->
  exists xs ys, repl v v' xs ys /\ chain t st xs ys st'.
Proof.
  unfold try_sub. destruct (is_schema v) eqn:Hs.
  - intros H. exists [v], [v']. split; [now constructor|]. econstructor; eauto. constructor.
  - intros [= <- <-]. exists [], []. split; [now constructor|constructor].
Qed.

Lemma try_list_repl l : forall st l' st', map_st (try_sub t) l st = (l', st') ->
  exists xs ys, repl_list l l' xs ys /\ chain t st xs ys st'.
Proof.
  induction l as [|v l IH]; intros st l' st'; cbn [map_st].
  - intros [= <- <-]. exists [], []. split; constructor.
  - destruct (try_sub t v st) as [v' st1] eqn:Hv. destruct (map_st (try_sub t) l st1) as [l1 st2] eqn:Hl.
    intros [= <- <-]. destruct (try_sub_repl _ _ _ _ Hv) as (xs & ys & H1 & H2).
    destruct (IH _ _ _ Hl) as (xs' & ys' & H3 & H4).
    exists (xs ++ xs')%list, (ys ++ ys')%list. split; [now constructor|]. eapply chain_app; eauto.
Qed.

Lemma try_named_repl p : forall st p' st',
  map_st (fun kv st => let '(x, st1) := try_sub t (snd kv) st in ((fst kv, x), st1)) p st = (p', st') ->
  exists xs ys, repl_named p p' xs ys /\ chain t st xs ys st'.
Proof.
  induction p as [|[n v] p IH]; intros st p' st'; cbn [map_st fst snd].
  - intros [= <- <-]. exists [], []. split; constructor.
  - destruct (try_sub t v st) as [v' st1] eqn:Hv.
    destruct (map_st _ p st1) as [p1 st2] eqn:Hl.
    intros [= <- <-]. destruct (try_sub_repl _ _ _ _ Hv) as (xs & ys & H1 & H2).
    destruct (IH _ _ _ Hl) as (xs' & ys' & H3 & H4).
    exists (xs ++ xs')%list, (ys ++ ys')%list. split; [now constructor|]. eapply chain_app; eauto.
Qed.

Lemma sub_value_repl k v st v' st' : sub_value t (shape_of k) v st = (v', st') ->
  exists xs ys, repl_kw k v v' xs ys /\ chain t st xs ys st'.
Proof.
  assert (H1 := in_one k). assert (H2 := in_list k). assert (H3 := in_kwmap k).
  destruct (shape_of k) eqn:Hs; cbn [sub_value].
  - intros H. apply try_sub_repl in H as (xs & ys & HR & HC). exists xs, ys. split; auto.
    apply rk_one; auto; [apply H1; auto|]. intros l [Hl _]. apply H2 in Hl as [?|?]; discriminate.
  - assert (HN1 : ~ In k kw_one) by (intros Hl; apply H1 in Hl as [?|?]; discriminate).
    assert (HN3 : ~ In k kw_map) by (intros Hl; apply H3 in Hl; discriminate).
    destruct v; cbn [try_arr];
      try (intros [= <- <-]; exists [], []; split; [apply rk_same; auto; [intros ? [_ ?]; discriminate|tauto]|constructor]).
    destruct (map_st (try_sub t) l st) as [l' st1] eqn:Hl. intros [= <- <-].
    apply try_list_repl in Hl as (xs & ys & HR & HC). exists xs, ys. split; auto.
    apply rk_list; auto. apply H2; auto.
  - intros H. assert (HI : In k kw_list) by (apply H2; auto). assert (HO : In k kw_one) by (apply H1; auto).
    destruct v; try (apply try_sub_repl in H as (xs & ys & HR & HC); exists xs, ys; split; auto;
      apply rk_one; auto; intros ? [_ ?]; discriminate).
    cbn [try_arr] in H. destruct (map_st (try_sub t) l st) as [l' st1] eqn:Hl. injection H as <- <-.
    apply try_list_repl in Hl as (xs & ys & HR & HC). exists xs, ys. split; auto.
    apply rk_list; auto.
  - assert (HN1 : ~ In k kw_one) by (intros Hl; apply H1 in Hl as [?|?]; discriminate).
    assert (HN2 : ~ In k kw_list) by (intros Hl; apply H2 in Hl as [?|?]; discriminate).
    destruct v; cbn [try_obj];
      try (intros [= <- <-]; exists [], []; split; [apply rk_same; auto; [tauto|intros ? [_ ?]; discriminate]|constructor]).
    destruct (map_st _ m st) as [m' st1] eqn:Hl. intros [= <- <-].
    apply try_named_repl in Hl as (xs & ys & HR & HC). exists xs, ys. split; auto.
    apply rk_map; auto. apply H3; auto.
  - assert (HN1 : ~ In k kw_one) by (intros Hl; apply H1 in Hl as [?|?]; discriminate).
    assert (HN2 : ~ In k kw_list) by (intros Hl; apply H2 in Hl as [?|?]; discriminate).
    assert (HN3 : ~ In k kw_map) by (intros Hl; apply H3 in Hl; discriminate).
    intros [= <- <-]. exists [], []. split; [apply rk_same; tauto|constructor].
Qed.

Lemma subschemas_repl m : forall st s' st', transform_subschemas_st t (JObj m) st = (s', st') ->
  exists m' xs ys, s' = JObj m' /\ repl_map m m' xs ys /\ chain t st xs ys st'.
Proof.
  cbn [transform_subschemas_st]. induction m as [|[k v] m IH]; intros st s' st'; cbn [map_st fst snd].
  - intros [= <- <-]. exists [], [], []. repeat split; constructor.
  - destruct (sub_value t (shape_of k) v st) as [v' st1] eqn:Hv.
    destruct (map_st _ m st1) as [m1 st2] eqn:Hm. intros [= <- <-].
    specialize (IH st1 (JObj m1) st2). rewrite Hm in IH.
    destruct (IH eq_refl) as (m' & xs' & ys' & [= ->] & H3 & H4).
    destruct (sub_value_repl _ _ _ _ _ Hv) as (xs & ys & H1 & H2).
    exists ((k, v') :: m'), (xs ++ xs')%list, (ys ++ ys')%list. repeat split.
    + now constructor.
    + eapply chain_app; eauto.
Qed.
End Any.

(** Only the calls on direct subschemas, in the states that occur, matter. *)
Section Ext.
Context {St : Type} (I : St -> Prop).
Definition keeps {A} (F : A -> St -> A * St) : Prop := forall a st, I st -> I (snd (F a st)).

Lemma map_st_keeps {A} (F : A -> St -> A * St) : keeps F -> forall l st, I st -> I (snd (map_st F l st)).
Proof.
  intros HF. induction l as [|a l IH]; intros st H; cbn [map_st]; auto.
  specialize (HF a st H). destruct (F a st) as [y st1]. cbn [snd] in HF. specialize (IH st1 HF).
  destruct (map_st F l st1). exact IH.
Qed.
Lemma map_st_ext {A} (F G : A -> St -> A * St) l : keeps G ->
  (forall a st, I st -> In a l -> F a st = G a st) ->
  forall st, I st -> map_st F l st = map_st G l st.
Proof.
  intros HG. induction l as [|a l IH]; intros H st Hst; cbn [map_st]; auto.
  rewrite H by (auto; now left). specialize (HG a st Hst).
  destruct (G a st) as [y st1]. rewrite IH; auto. intros; apply H; auto. now right.
Qed.
Lemma try_sub_keeps t : keeps t -> keeps (try_sub t).
Proof. intros H a st Hst. unfold try_sub. destruct (is_schema a); [now apply H|exact Hst]. Qed.
Lemma named_keeps t : keeps t ->
  keeps (fun (kv : string * json) st => let '(x, st1) := try_sub t (snd kv) st in ((fst kv, x), st1)).
Proof.
  intros H a st Hst. pose proof (try_sub_keeps t H (snd a) st Hst) as H1.
  destruct (try_sub t (snd a) st). exact H1.
Qed.
Lemma sub_value_keeps t sh : keeps t -> keeps (sub_value t sh).
Proof.
  intros H v st Hst.
  assert (HA : forall v, I (snd (try_arr t v st))).
  { intros []; cbn [try_arr]; auto. pose proof (map_st_keeps _ (try_sub_keeps t H) l st Hst) as H1.
    destruct (map_st (try_sub t) l st). exact H1. }
  destruct sh; cbn [sub_value]; auto.
  - now apply try_sub_keeps.
  - destruct v; auto; now apply try_sub_keeps.
  - destruct v; cbn [try_obj]; auto. pose proof (map_st_keeps _ (named_keeps t H) m st Hst) as H1.
    destruct (map_st _ m st). exact H1.
Qed.

Lemma subschemas_ext_st (t t' : tr St) m : keeps t' ->
  (forall x st, I st -> direct_sub m x -> t x st = t' x st) ->
  forall st, I st -> transform_subschemas_st t (JObj m) st = transform_subschemas_st t' (JObj m) st.
Proof.
  intros HK H st Hst. cbn [transform_subschemas_st].
  rewrite (map_st_ext _ (fun kv st => let '(x, st1) := sub_value t' (shape_of (fst kv)) (snd kv) st in ((fst kv, x), st1))); auto.
  { intros kv st1 Hst1. pose proof (sub_value_keeps t' (shape_of (fst kv)) HK (snd kv) st1 Hst1) as H1.
    destruct (sub_value _ _ _ _). exact H1. }
  intros [k v] st' Hst' Hin. cbn [fst snd].
  assert (HX : forall x st, I st -> In x (direct_of (shape_of k) v) -> t x st = t' x st).
  { intros x st1 Hs1 Hx. apply H; auto. apply direct_spec. unfold direct. apply in_flat_map. now exists (k, v). }
  assert (HT : forall x st, I st -> (is_schema x = true -> In x (direct_of (shape_of k) v)) -> try_sub t x st = try_sub t' x st).
  { intros x st1 Hs1 Hx. unfold try_sub. destruct (is_schema x) eqn:Hs; auto. }
  assert (HKs := try_sub_keeps t' HK). assert (HKn := named_keeps t' HK).
  assert (HE : sub_value t (shape_of k) v st' = sub_value t' (shape_of k) v st'); [|now rewrite HE].
  destruct (shape_of k); cbn [sub_value].
  - apply HT; auto. intros Hs. cbn. rewrite Hs. now left.
  - destruct v; auto. cbn [try_arr]. rewrite (map_st_ext _ (try_sub t')); auto.
    intros a st1 Hs1 Ha. apply HT; auto. intros Hs. cbn. apply filter_In. auto.
  - destruct v; try (apply HT; auto; intros Hs; cbn in *; try discriminate; now left).
    cbn [try_arr]. rewrite (map_st_ext _ (try_sub t')); auto.
    intros a st1 Hs1 Ha. apply HT; auto. intros Hs. cbn. apply filter_In. auto.
  - destruct v; auto. cbn [try_obj].
    rewrite (map_st_ext _ (fun kv st => let '(x, st1) := try_sub t' (snd kv) st in ((fst kv, x), st1))); auto.
    intros [n a] st1 Hs1 Ha. cbn [fst snd]. rewrite HT; auto. intros Hs. cbn. apply filter_In. split; auto.
    apply in_map_iff. now exists (n, a).
  - reflexivity.
Qed.
End Ext.

(** ** RecursiveTransform *)
(** [x] is a schema that a recursive application of [f] to [s] has to reach: [s] itself, and the
    direct subschemas of what [f] makes of a reached schema. *)
Inductive reached (f : json -> json) (s : json) : json -> Prop :=
| re_self : reached f s s
| re_step y m x : reached f s y -> f y = JObj m -> direct_sub m x -> reached f s x.

Section Rec.
Context {St : Type} (f : json -> json) (step : json -> St -> St).
Notation inner := (with_log f step).

Fixpoint R (n : nat) (s : json) : json :=
  match n with O => s | S n' => transform_subschemas (R n') (f s) end.
Fixpoint V (n : nat) (s : json) : list json :=
  match n with
  | O => []
  | S n' => s :: match f s with JObj m => flat_map (V n') (direct m) | _ => [] end
  end.

Variable mu : json -> nat.
Hypothesis Hmu : forall s m x, f s = JObj m -> direct_sub m x -> mu x < mu s.

Lemma R_stable n : forall n' s, mu s < n -> mu s < n' -> R n s = R n' s.
Proof.
  induction n as [|n IH]; intros [|n'] s H1 H2; try lia. cbn [R].
  apply transform_subschemas_ext. intros m x Hm Hx. pose proof (Hmu _ _ _ Hm Hx). apply IH; lia.
Qed.

Lemma visit_flat (l : list json) (D : json -> list json) st :
  fold_left (fun (ost : option St) x => option_map (fun st => visit step (D x) st) ost) l (Some st)
  = Some (visit step (flat_map D l) st).
Proof.
  revert st. induction l as [|x l IH]; intros st; cbn [fold_left flat_map option_map]; auto.
  rewrite IH. now rewrite visit_app.
Qed.

Lemma recursive_run n : forall s st, mu s < n ->
  recursive_transform n inner s st = Some (R n s, visit step (V n s) st).
Proof.
  induction n as [|n IH]; intros s st Hn; [lia|]. cbn [recursive_transform].
  unfold with_log at 1. destruct (f s) as [| | | | |m] eqn:Hf;
    try (cbn [transform_subschemas_st R V]; rewrite Hf; reflexivity).
  rewrite (subschemas_ext_st (fun ost => ost <> None) _
             (with_log (R n) (fun x ost => option_map (fun st => visit step (V n x) st) ost)) m).
  - rewrite subschemas_log. unfold visit at 1. rewrite visit_flat. cbn [R V]. rewrite Hf. reflexivity.
  - intros a [st'|] H; [discriminate|contradiction].
  - intros x [st'|] H Hx; [|contradiction]. unfold lift_none, with_log.
    pose proof (Hmu _ _ _ Hf Hx). rewrite IH by lia. reflexivity.
  - discriminate.
Qed.

Lemma R_unfold n s : mu s < n -> R n s = transform_subschemas (R n) (f s).
Proof.
  destruct n; [lia|]. intros H. cbn [R]. apply transform_subschemas_ext. intros m x Hm Hx.
  pose proof (Hmu _ _ _ Hm Hx). apply (R_stable n (S n)); lia.
Qed.

Lemma V_reached n : forall s x, mu s < n -> In x (V n s) <-> reached f s x.
Proof.
  induction n as [|n IH]; intros s x Hn; [lia|]. cbn [V In]. split.
  - intros [<-|Hx]; [constructor|]. destruct (f s) as [| | | | |m] eqn:Hf; try contradiction.
    apply in_flat_map in Hx as (y & Hy & Hx). apply direct_spec in Hy. pose proof (Hmu _ _ _ Hf Hy).
    apply IH in Hx; [|lia]. clear -Hf Hy Hx.
    induction Hx as [|z mz x Hz IH Hfz Hd]; [eapply re_step; [constructor|eauto|eauto]|].
    eapply re_step; eauto.
  - intros Hx.
    assert (HC : x = s \/ exists m y, f s = JObj m /\ direct_sub m y /\ reached f y x).
    { clear -Hx. induction Hx as [|z mz x Hz IH Hfz Hd]; [now left|]. right.
      destruct IH as [->|(m & y & H1 & H2 & H3)].
      - exists mz, x. repeat split; auto. constructor.
      - exists m, y. repeat split; auto. eapply re_step; eauto. }
    destruct HC as [->|(m & y & Hf & Hy & Hr)]; [now left|right]. rewrite Hf.
    pose proof (Hmu _ _ _ Hf Hy). apply in_flat_map. exists y. split; [now apply direct_spec|].
    apply IH; [lia|auto].
Qed.

(** Parents first: what precedes a visited schema contains its parent. *)
Lemma V_parents n : forall s l1 x l2, V n s = (l1 ++ x :: l2)%list ->
  (l1 = [] /\ x = s) \/ exists y m, In y l1 /\ f y = JObj m /\ direct_sub m x.
Proof.
  induction n as [|n IH]; intros s l1 x l2 H; cbn [V] in H; [now destruct l1|].
  destruct l1 as [|z l1]; cbn [app] in H; injection H as Hz H; [left; auto|subst z; right].
  destruct (f s) as [| | | | |m] eqn:Hf; try (destruct l1; discriminate).
  assert (HG : forall ds, (forall d, In d ds -> direct_sub m d) -> forall l1 l2,
    flat_map (V n) ds = (l1 ++ x :: l2)%list ->
    direct_sub m x \/ exists y m', In y l1 /\ f y = JObj m' /\ direct_sub m' x).
  { clear H l1 l2. induction ds as [|d ds IHd]; intros Hd l1 l2 H; [now destruct l1|].
    cbn [flat_map] in H.
    assert (HS : (exists r, V n d = (l1 ++ x :: r)%list) \/
                 (exists r, l1 = (V n d ++ r)%list /\ flat_map (V n) ds = (r ++ x :: l2)%list)).
    { revert H. generalize (V n d), (flat_map (V n) ds). clear.
      intros a b. revert l1. induction a as [|a0 a IHa]; intros l1 H; cbn [app] in H.
      - right. exists l1. auto.
      - destruct l1 as [|z l1]; cbn [app] in H; injection H as Hz H; subst.
        + left. exists a. reflexivity.
        + destruct (IHa _ H) as [(r & ->)|(r & -> & Hr)]; [left; exists r; auto|right; exists r; auto]. }
    destruct HS as [(r & Hr)|(r & Hl & Hr)].
    - apply IH in Hr as [[_ ->]|(y & m' & Hy & Hy2)]; [left; apply Hd; now left|right; eauto].
    - apply IHd in Hr as [Hx|(y & m' & Hy & Hy2)]; auto; [|intros; apply Hd; now right].
      right. exists y, m'. split; [subst; apply in_or_app; auto|auto]. }
  apply (HG (direct m)) in H as [Hx|(y & m' & Hy & Hy2)].
  - exists s, m. repeat split; auto. now left.
  - exists y, m'. split; [now right|auto].
  - intros d Hd. now apply direct_spec.
Qed.
End Rec.

(** Any stateful inner transform: the run exists, does not depend on the bound, and is the inner
    transform followed by the recursion into the subschemas of its result. *)
Section RecSt.
Context {St : Type} (inner : tr St).
Variable mu : json -> nat.
Hypothesis Hmu : forall s st m st' x, inner s st = (JObj m, st') -> direct_sub m x -> mu x < mu s.

Definition some_st (ost : option St) : Prop := ost <> None.

Definition total (n : nat) : tr St :=
  fun s st => match recursive_transform n inner s st with Some r => r | None => (s, st) end.

Lemma lift_total (n : nat) m : (forall x st, direct_sub m x -> recursive_transform n inner x st <> None) ->
  forall st, transform_subschemas_st (lift_none (recursive_transform n inner)) (JObj m) (Some st)
  = let '(s', st') := transform_subschemas_st (total n) (JObj m) st in (s', Some st').
Proof.
  intros H st. rewrite (subschemas_ext_st some_st _ (fun x ost =>
      match ost with Some st => let '(y, st') := total n x st in (y, Some st') | None => (x, None) end) m).
  - (* the lifted total transform *)
    assert (HM : forall A (F : A -> St -> A * St) (G : A -> option St -> A * option St),
      (forall a st, G a (Some st) = let '(y, st') := F a st in (y, Some st')) ->
      forall l st, map_st G l (Some st) = let '(l', st') := map_st F l st in (l', Some st')).
    { intros A F G HG l. induction l as [|a l IH]; intros st1; cbn [map_st]; auto. rewrite HG.
      destruct (F a st1) as [y st2]. rewrite IH. now destruct (map_st F l st2). }
    set (g := fun x (ost : option St) => match ost with Some st => let '(y, st') := total n x st in (y, Some st') | None => (x, None) end).
    assert (HT : forall v st, try_sub g v (Some st) = let '(y, st') := try_sub (total n) v st in (y, Some st')).
    { intros v st1. unfold try_sub. destruct (is_schema v); reflexivity. }
    assert (HA : forall v st, try_arr g v (Some st) = let '(y, st') := try_arr (total n) v st in (y, Some st')).
    { intros [] st1; try reflexivity. cbn [try_arr]. rewrite (HM _ (try_sub (total n)) (try_sub g)) by auto.
      now destruct (map_st (try_sub (total n)) l st1). }
    assert (HO : forall v st, try_obj g v (Some st) = let '(y, st') := try_obj (total n) v st in (y, Some st')).
    { intros [] st1; try reflexivity. cbn [try_obj].
      rewrite (HM _ (fun (kv : string * json) st => let '(x, st1) := try_sub (total n) (snd kv) st in ((fst kv, x), st1))
                 (fun (kv : string * json) st => let '(x, st1) := try_sub g (snd kv) st in ((fst kv, x), st1))).
      - now destruct (map_st _ m0 st1).
      - intros [k v] st2. cbn [fst snd]. rewrite HT. now destruct (try_sub (total n) v st2). }
    cbn [transform_subschemas_st].
    rewrite (HM _ (fun (kv : string * json) st => let '(x, st1) := sub_value (total n) (shape_of (fst kv)) (snd kv) st in ((fst kv, x), st1))
                 (fun (kv : string * json) st => let '(x, st1) := sub_value g (shape_of (fst kv)) (snd kv) st in ((fst kv, x), st1))).
    + now destruct (map_st _ m st).
    + intros [k v] st2. cbn [fst snd].
      assert (HV : sub_value g (shape_of k) v (Some st2) = let '(y, st') := sub_value (total n) (shape_of k) v st2 in (y, Some st')).
      { destruct (shape_of k); cbn [sub_value]; auto. destruct v; auto. }
      rewrite HV. now destruct (sub_value (total n) (shape_of k) v st2).
  - intros a [st1|] H1; [destruct (total n a st1); discriminate|contradiction].
  - intros x [st1|] H1 Hx; [|contradiction]. unfold lift_none, total.
    specialize (H x st1 Hx). destruct (recursive_transform n inner x st1) as [[]|]; [reflexivity|contradiction].
  - discriminate.
Qed.

Lemma recursive_total n : forall s st, mu s < n ->
  recursive_transform n inner s st
  = let '(s1, st1) := inner s st in Some (transform_subschemas_st (total n) s1 st1).
Proof.
  assert (HD : forall n s st, mu s < n -> recursive_transform n inner s st <> None).
  { clear n. induction n as [|n IH]; intros s st Hn; [lia|]. cbn [recursive_transform].
    destruct (inner s st) as [s1 st1] eqn:Hi. destruct s1 as [| | | | |m]; try discriminate.
    rewrite lift_total.
    - destruct (transform_subschemas_st _ _ _). discriminate.
    - intros x st' Hx. pose proof (Hmu _ _ _ _ _ Hi Hx). apply IH. lia. }
  assert (HS : forall n n' s st, mu s < n -> mu s < n' ->
    recursive_transform n inner s st = recursive_transform n' inner s st).
  { clear n. induction n as [|n IH]; intros [|n'] s st H1 H2; try lia. cbn [recursive_transform].
    destruct (inner s st) as [s1 st1] eqn:Hi. destruct s1 as [| | | | |m]; try reflexivity.
    rewrite (subschemas_ext_st (fun _ => True) _ (lift_none (recursive_transform n' inner)) m); auto.
    - intros a b c. exact I.
    - intros x [st'|] _ Hx; [|reflexivity]. unfold lift_none. pose proof (Hmu _ _ _ _ _ Hi Hx).
      rewrite (IH n') by lia. reflexivity. }
  intros s st Hn. destruct n as [|n]; [lia|]. cbn [recursive_transform].
  destruct (inner s st) as [s1 st1] eqn:Hi. destruct s1 as [| | | | |m]; try reflexivity.
  rewrite lift_total.
  - rewrite (subschemas_ext_st (fun _ => True) (total n) (total (S n)) m); auto.
    + now destruct (transform_subschemas_st (total (S n)) (JObj m) st1).
    + intros a b c. exact I.
    + intros x st' _ Hx. unfold total. pose proof (Hmu _ _ _ _ _ Hi Hx). rewrite (HS n (S n)) by lia. reflexivity.
  - intros x st' Hx. pose proof (Hmu _ _ _ _ _ Hi Hx). apply HD. lia.
Qed.
End RecSt.

(** ** An inner transform that adds a subschema at every level never stops. *)
Definition add_not : tr unit := fun s u =>
  (match s with JObj m => JObj (mset "not" (JObj []) m) | _ => JObj [("not", JObj [])] end, u).
Lemma add_not_diverges n : recursive_transform n add_not (JObj []) tt = None.
Proof.
  induction n as [|n IH]; [reflexivity|]. cbn [recursive_transform]. cbn -[recursive_transform].
  unfold try_sub; cbn [is_schema]. unfold lift_none. now rewrite IH.
Qed.

(** ** Big-step specification for any inner transform, stateful or not: apply it to the schema,
    then recursively to the direct subschemas of the result, in order, threading its state. *)
Inductive runs {St} (inner : json -> St -> json * St) : json -> St -> json -> St -> Prop :=
| ru_leaf s st s1 st1 : inner s st = (s1, st1) -> is_obj s1 = false -> runs inner s st s1 st1
| ru_obj s st m st1 m' xs ys st2 :
    inner s st = (JObj m, st1) -> repl_map m m' xs ys -> runs_all inner st1 xs ys st2 ->
    runs inner s st (JObj m') st2
with runs_all {St} (inner : json -> St -> json * St) : St -> list json -> list json -> St -> Prop :=
| ra_nil st : runs_all inner st [] [] st
| ra_cons st x y st1 xs ys st2 :
    runs inner x st y st1 -> runs_all inner st1 xs ys st2 ->
    runs_all inner st (x :: xs) (y :: ys) st2.

Lemma chain_none {St} (t : json -> St -> option (json * St)) xs ys o :
  chain (lift_none t) None xs ys o -> o = None.
Proof.
  revert ys. induction xs as [|x xs IH]; intros ys H; inversion H; subst; auto.
  match goal with H : lift_none t x None = _ |- _ => cbn in H; injection H as <- <- end. eauto.
Qed.

Lemma recursive_runs {St} (inner : tr St) n : forall s st s' st',
  recursive_transform n inner s st = Some (s', st') -> runs inner s st s' st'.
Proof.
  induction n as [|n IH]; intros s st s' st'; cbn [recursive_transform]; [discriminate|].
  destruct (inner s st) as [s1 st1] eqn:Hi. destruct s1 as [| | | | |m];
    try (cbn [transform_subschemas_st]; intros [= <- <-]; now apply ru_leaf).
  destruct (transform_subschemas_st (lift_none (recursive_transform n inner)) (JObj m) (Some st1))
    as [s2 ost] eqn:Ht.
  destruct ost as [st2|]; [|discriminate]. intros [= <- <-].
  apply subschemas_repl in Ht as (m' & xs & ys & -> & HR & HC).
  eapply ru_obj; eauto. clear HR Hi. revert ys st1 HC. induction xs as [|x xs IHx]; intros ys st1 HC.
  - inversion HC; subst. constructor.
  - inversion HC as [|? ? y o1 ? ys' ? Hx HC' e1 e2 e3 e4]; subst. cbn [lift_none] in Hx.
    destruct (recursive_transform n inner x st1) as [[y' st3]|] eqn:Hr.
    + injection Hx as <- <-. eapply ra_cons; eauto.
    + injection Hx as <- <-. apply chain_none in HC'. discriminate.
Qed.

Lemma recursive_terminates {St} (inner : tr St) (mu : json -> nat) :
  (forall s st m st' x, inner s st = (JObj m, st') -> direct_sub m x -> mu x < mu s) ->
  forall n s st, mu s < n -> exists s' st', recursive_transform n inner s st = Some (s', st').
Proof.
  intros Hmu n s st Hn. rewrite (recursive_total inner mu Hmu n s st Hn).
  destruct (inner s st) as [s1 st1]. destruct (transform_subschemas_st (total inner n) s1 st1) as [a b].
  eauto.
Qed.
