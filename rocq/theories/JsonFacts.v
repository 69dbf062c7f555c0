(** Lemmas about [Json]. *)
From Coq Require Import String Ascii List ZArith Bool Lia.
From Verif Require Import Json.
Import ListNotations.
Open Scope string_scope.
Open Scope list_scope.

(** ** Induction principle for the nested type *)
Section Ind.
  Variable P : json -> Prop.
  Hypothesis Hnull : P JNull.
  Hypothesis Hbool : forall b, P (JBool b).
  Hypothesis Hnum : forall n, P (JNum n).
  Hypothesis Hstr : forall s, P (JStr s).
  Hypothesis Harr : forall l, Forall P l -> P (JArr l).
  Hypothesis Hobj : forall m, Forall (fun kv => P (snd kv)) m -> P (JObj m).
  Fixpoint json_ind' (j : json) : P j :=
    match j with
    | JNull => Hnull
    | JBool b => Hbool b
    | JNum n => Hnum n
    | JStr s => Hstr s
    | JArr l => Harr l ((fix go (l : list json) : Forall P l :=
                           match l with
                           | [] => Forall_nil _
                           | x :: t => Forall_cons _ (json_ind' x) (go t)
                           end) l)
    | JObj m => Hobj m ((fix go (m : list (string * json)) : Forall (fun kv => P (snd kv)) m :=
                           match m with
                           | [] => Forall_nil _
                           | kv :: t => Forall_cons kv (json_ind' (snd kv)) (go t)
                           end) m)
    end.
End Ind.

(** ** String order *)
Lemma scmp_refl s : String.compare s s = Eq.
Proof.
  induction s as [|a s IH]; cbn; [reflexivity|].
  unfold Ascii.compare. rewrite N.compare_refl. exact IH.
Qed.

Lemma scmp_eq a b : String.compare a b = Eq -> a = b.
Proof. apply String.compare_eq_iff. Qed.

Lemma scmp_sym a b : String.compare a b = CompOpp (String.compare b a).
Proof. apply String.compare_antisym. Qed.

Lemma ascii_N_inj a b : N_of_ascii a = N_of_ascii b -> a = b.
Proof. intros H. rewrite <- (ascii_N_embedding a), <- (ascii_N_embedding b), H. reflexivity. Qed.

Lemma scmp_trans a : forall b c,
  String.compare a b = Lt -> String.compare b c = Lt -> String.compare a c = Lt.
Proof.
  induction a as [|x a IH]; intros [|y b] [|z c]; cbn; try congruence.
  unfold Ascii.compare.
  destruct (N.compare_spec (N_of_ascii x) (N_of_ascii y)) as [E|L|G]; intros H1 H2; try congruence.
  - rewrite E. destruct (N.compare (N_of_ascii y) (N_of_ascii z)) eqn:E2; try congruence.
    eapply IH; eauto.
  - destruct (N.compare_spec (N_of_ascii y) (N_of_ascii z)) as [E2|L2|G2]; try congruence.
    + rewrite <- E2. apply N.compare_lt_iff in L. rewrite L. reflexivity.
    + assert (N_of_ascii x < N_of_ascii z)%N as HH by lia. apply N.compare_lt_iff in HH.
      rewrite HH. reflexivity.
Qed.

Lemma seqb_cmp a b : String.eqb a b = match String.compare a b with Eq => true | _ => false end.
Proof.
  destruct (String.compare a b) eqn:E.
  - apply scmp_eq in E. subst. apply String.eqb_refl.
  - destruct (String.eqb_spec a b); [subst; rewrite scmp_refl in E; discriminate|reflexivity].
  - destruct (String.eqb_spec a b); [subst; rewrite scmp_refl in E; discriminate|reflexivity].
Qed.

(** ** Map laws *)
Section Maps.
  Context {A : Type}.
  Implicit Types m : list (string * A).

  Lemma mget_mset_eq k (v : A) m : mget k (mset k v m) = Some v.
  Proof.
    induction m as [|[k' v'] m IH]; cbn; [now rewrite String.eqb_refl|].
    destruct (String.compare k k') eqn:E; cbn.
    - now rewrite String.eqb_refl.
    - now rewrite String.eqb_refl.
    - rewrite seqb_cmp, E. exact IH.
  Qed.

  Lemma mget_mset_ne k k' (v : A) m : k <> k' -> mget k (mset k' v m) = mget k m.
  Proof.
    intros N. induction m as [|[k2 v2] m IH]; cbn.
    - destruct (String.eqb_spec k k'); congruence.
    - destruct (String.compare k' k2) eqn:E; cbn.
      + apply scmp_eq in E. subst k2. destruct (String.eqb_spec k k'); congruence.
      + destruct (String.eqb_spec k k'); congruence.
      + rewrite IH. reflexivity.
  Qed.

  Lemma mget_mset k k' (v : A) m :
    mget k (mset k' v m) = if String.eqb k k' then Some v else mget k m.
  Proof.
    destruct (String.eqb_spec k k').
    - subst. apply mget_mset_eq.
    - now apply mget_mset_ne.
  Qed.

  Lemma mget_mdel k k' m :
    mget k (mdel k' m) = if String.eqb k k' then None else mget k m.
  Proof.
    induction m as [|[k2 v2] m IH]; cbn.
    - now destruct (String.eqb k k').
    - destruct (String.eqb_spec k' k2).
      + subst. rewrite IH. destruct (String.eqb_spec k k2); reflexivity.
      + cbn. rewrite IH. destruct (String.eqb_spec k k2); [|reflexivity].
        subst. destruct (String.eqb_spec k2 k'); congruence.
  Qed.

  Lemma mget_mupd k k' (f : A -> A) m :
    mget k (mupd k' f m) = if String.eqb k k' then option_map f (mget k m) else mget k m.
  Proof.
    induction m as [|[k2 v2] m IH]; cbn.
    - now destruct (String.eqb k k').
    - destruct (String.eqb_spec k' k2); cbn.
      + subst. destruct (String.eqb_spec k k2); reflexivity.
      + rewrite IH. destruct (String.eqb_spec k k2); [|reflexivity].
        subst. destruct (String.eqb_spec k2 k'); congruence.
  Qed.

  Lemma mhas_mset k k' (v : A) m : mhas k (mset k' v m) = String.eqb k k' || mhas k m.
  Proof. unfold mhas. rewrite mget_mset. destruct (String.eqb k k'); reflexivity. Qed.

  Lemma mhas_mdel k k' m : mhas k (mdel k' m) = negb (String.eqb k k') && mhas k m.
  Proof. unfold mhas. rewrite mget_mdel. destruct (String.eqb k k'); reflexivity. Qed.

  Lemma mget_In k v m : mget k m = Some v -> In (k, v) m.
  Proof.
    induction m as [|[k2 v2] m IH]; cbn; [discriminate|].
    destruct (String.eqb_spec k k2); intros H.
    - injection H as ->. subst. now left.
    - right; auto.
  Qed.

  Lemma mget_None k m : mget k m = None <-> ~ In k (map fst m).
  Proof.
    induction m as [|[k2 v2] m IH]; cbn; [tauto|].
    destruct (String.eqb_spec k k2).
    - split; [discriminate|]. intros H. exfalso. apply H. left. congruence.
    - rewrite IH. split; intros H; [intros [->|]|]; auto.
  Qed.

  Lemma mhas_In k m : mhas k m = true <-> In k (map fst m).
  Proof.
    unfold mhas. destruct (mget k m) eqn:E.
    - split; [|reflexivity]. intros _. apply mget_In in E. apply in_map_iff. now exists (k, a).
    - apply mget_None in E. split; [discriminate|tauto].
  Qed.

  Lemma mhas_false k m : mhas k m = false <-> mget k m = None.
  Proof. unfold mhas. destruct (mget k m); split; congruence. Qed.

  Lemma mhas_true k m : mhas k m = true <-> exists v, mget k m = Some v.
  Proof.
    unfold mhas. destruct (mget k m); split; try congruence; eauto.
    intros [v H]; discriminate.
  Qed.

  Lemma mdel_absent k m : mget k m = None -> mdel k m = m.
  Proof.
    induction m as [|[k2 v2] m IH]; cbn; [reflexivity|].
    destruct (String.eqb_spec k k2); [discriminate|]. intros H. now rewrite IH.
  Qed.

  Lemma NoDup_mget k v m : NoDup (map fst m) -> In (k, v) m -> mget k m = Some v.
  Proof.
    induction m as [|[k2 v2] m IH]; cbn; [tauto|].
    intros ND [H|H].
    - injection H as -> ->. now rewrite String.eqb_refl.
    - inversion ND; subst. destruct (String.eqb_spec k k2); [|auto].
      subst. exfalso. apply H2. apply in_map_iff. now exists (k2, v).
  Qed.
End Maps.

Lemma mget_map {A B} (f : string -> A -> B) k (m : list (string * A)) :
  mget k (map (fun kv => (fst kv, f (fst kv) (snd kv))) m) = option_map (f k) (mget k m).
Proof.
  induction m as [|[k2 v2] m IH]; cbn; [reflexivity|].
  destruct (String.eqb_spec k k2); [now subst|exact IH].
Qed.

Lemma mget_mappend {A} k (m2 : list (string * A)) : forall m1,
  mget k (mappend m1 m2) =
  match mget k (rev m2) with Some v => Some v | None => mget k m1 end.
Proof.
  unfold mappend. induction m2 as [|[k2 v2] m2 IH] using rev_ind; intros m1; cbn; [reflexivity|].
  rewrite fold_left_app, rev_app_distr. cbn. rewrite mget_mset, IH.
  destruct (String.eqb k k2); reflexivity.
Qed.

Lemma mget_rev_NoDup {A} k (m : list (string * A)) :
  NoDup (map fst m) -> mget k (rev m) = mget k m.
Proof.
  intros ND. destruct (mget k m) eqn:E.
  - apply NoDup_mget.
    + rewrite map_rev. now apply NoDup_rev.
    + apply in_rev. rewrite rev_involutive. now apply mget_In.
  - apply mget_None. rewrite map_rev. intros H. apply in_rev in H. apply mget_None in E. auto.
Qed.

Lemma mget_mappend_NoDup {A} k (m1 m2 : list (string * A)) :
  NoDup (map fst m2) ->
  mget k (mappend m1 m2) = match mget k m2 with Some v => Some v | None => mget k m1 end.
Proof. intros ND. rewrite mget_mappend, mget_rev_NoDup by auto. reflexivity. Qed.

(** ** Sortedness *)
Definition klt (a b : string) : Prop := String.compare a b = Lt.

Lemma sorted_keys_cons k ks :
  sorted_keys (k :: ks) = true <-> Forall (klt k) ks /\ sorted_keys ks = true.
Proof.
  revert k. induction ks as [|k2 ks IH]; intros k.
  - cbn. split; auto.
  - change (sorted_keys (k :: k2 :: ks))
      with (match String.compare k k2 with Lt => true | _ => false end && sorted_keys (k2 :: ks)).
    rewrite andb_true_iff. split.
    + intros [H1 H2]. split; [|exact H2].
      assert (klt k k2) as L by (unfold klt; destruct (String.compare k k2); congruence).
      constructor; [exact L|]. apply IH in H2. destruct H2 as [H2 _].
      eapply Forall_impl; [|exact H2]. intros a Ha. eapply scmp_trans; eauto.
    + intros [H1 H2]. inversion H1; subst. unfold klt in H3. rewrite H3. auto.
Qed.

Lemma sorted_NoDup ks : sorted_keys ks = true -> NoDup ks.
Proof.
  induction ks as [|k ks IH]; intros H; [constructor|].
  apply sorted_keys_cons in H as [H1 H2]. constructor; [|auto].
  intros HI. rewrite Forall_forall in H1. specialize (H1 _ HI).
  unfold klt in H1. rewrite scmp_refl in H1. discriminate.
Qed.

Lemma mset_keys_In {A} k (v : A) m x :
  In x (map fst (mset k v m)) <-> x = k \/ In x (map fst m).
Proof.
  induction m as [|[k2 v2] m IH]; cbn; [intuition congruence|].
  destruct (String.compare k k2) eqn:E; cbn.
  - apply scmp_eq in E. subst. intuition congruence.
  - intuition congruence.
  - rewrite IH. intuition congruence.
Qed.

Lemma sorted_mset {A} k (v : A) m :
  sorted_keys (map fst m) = true -> sorted_keys (map fst (mset k v m)) = true.
Proof.
  induction m as [|[k2 v2] m IH]; intros H; [reflexivity|].
  cbn [mset]. cbn [map fst] in H. pose proof H as H0. apply sorted_keys_cons in H as [H1 H2].
  destruct (String.compare k k2) eqn:E.
  - apply scmp_eq in E. subst. exact H0.
  - cbn [map fst]. apply sorted_keys_cons. split; [|exact H0].
    constructor; [exact E|]. eapply Forall_impl; [|exact H1].
    intros a Ha. eapply scmp_trans; eauto.
  - cbn [map fst]. apply sorted_keys_cons. split; [|auto].
    apply Forall_forall. intros x Hx. apply mset_keys_In in Hx as [->|Hx].
    + unfold klt. rewrite scmp_sym, E. reflexivity.
    + rewrite Forall_forall in H1. auto.
Qed.

Lemma mdel_keys_In {A} k (m : list (string * A)) x :
  In x (map fst (mdel k m)) <-> x <> k /\ In x (map fst m).
Proof.
  induction m as [|[k2 v2] m IH]; cbn; [tauto|].
  destruct (String.eqb_spec k k2); cbn; rewrite IH; intuition congruence.
Qed.

Lemma sorted_mdel {A} k (m : list (string * A)) :
  sorted_keys (map fst m) = true -> sorted_keys (map fst (mdel k m)) = true.
Proof.
  induction m as [|[k2 v2] m IH]; intros H; [reflexivity|].
  cbn [mdel]. cbn [map fst] in H. apply sorted_keys_cons in H as [H1 H2].
  destruct (String.eqb k k2); [auto|].
  cbn [map fst]. apply sorted_keys_cons. split; [|auto].
  apply Forall_forall. intros x Hx. apply mdel_keys_In in Hx as [_ Hx].
  rewrite Forall_forall in H1. auto.
Qed.

Lemma sorted_mappend {A} (m2 : list (string * A)) : forall m1,
  sorted_keys (map fst m1) = true -> sorted_keys (map fst (mappend m1 m2)) = true.
Proof.
  unfold mappend. induction m2 as [|[k v] m2 IH]; intros m1 H; cbn; [exact H|].
  apply IH. now apply sorted_mset.
Qed.

Lemma sorted_mk {A} (l : list (string * A)) : sorted_keys (map fst (mk l)) = true.
Proof. apply sorted_mappend. reflexivity. Qed.

Lemma map_fst_map {A B} (f : string * A -> B) (m : list (string * A)) :
  map fst (map (fun kv => (fst kv, f kv)) m) = map fst m.
Proof. induction m; cbn; congruence. Qed.

(** Two sorted maps with the same lookups are equal. *)
Lemma sorted_ext {A} (m1 : list (string * A)) : forall m2,
  sorted_keys (map fst m1) = true -> sorted_keys (map fst m2) = true ->
  (forall k, mget k m1 = mget k m2) -> m1 = m2.
Proof.
  induction m1 as [|[k v] m1 IH]; intros [|[k2 v2] m2] S1 S2 H.
  - reflexivity.
  - specialize (H k2). cbn in H. rewrite String.eqb_refl in H. discriminate.
  - specialize (H k). cbn in H. rewrite String.eqb_refl in H. discriminate.
  - cbn [map fst] in S1, S2. apply sorted_keys_cons in S1 as [F1 S1].
    apply sorted_keys_cons in S2 as [F2 S2].
    assert (k = k2) as ->.
    { pose proof (H k) as Hk. pose proof (H k2) as Hk2. cbn in Hk, Hk2.
      rewrite String.eqb_refl in Hk, Hk2.
      destruct (String.eqb_spec k k2); [auto|].
      destruct (String.eqb_spec k2 k); [congruence|].
      symmetry in Hk. apply mget_In in Hk. apply mget_In in Hk2.
      apply (in_map fst) in Hk. apply (in_map fst) in Hk2. cbn in Hk, Hk2.
      rewrite Forall_forall in F1, F2. specialize (F1 _ Hk2). specialize (F2 _ Hk).
      unfold klt in F1, F2. rewrite scmp_sym, F2 in F1. discriminate. }
    pose proof (H k2) as Hk. cbn in Hk. rewrite String.eqb_refl in Hk. injection Hk as ->.
    f_equal. apply IH; auto.
    intros k. specialize (H k). cbn in H. destruct (String.eqb_spec k k2); [|exact H].
    subst. apply sorted_NoDup in S1, S2.
    assert (~ In k2 (map fst m1)) as N1.
    { intros HI. rewrite Forall_forall in F1. specialize (F1 _ HI). unfold klt in F1.
      rewrite scmp_refl in F1. discriminate. }
    assert (~ In k2 (map fst m2)) as N2.
    { intros HI. rewrite Forall_forall in F2. specialize (F2 _ HI). unfold klt in F2.
      rewrite scmp_refl in F2. discriminate. }
    apply mget_None in N1, N2. congruence.
Qed.

(** ** Decidable equality *)
Lemma number_eqb_eq a b : number_eqb a b = true <-> a = b.
Proof.
  destruct a, b; cbn; try (split; congruence).
  - rewrite Z.eqb_eq. split; congruence.
  - rewrite andb_true_iff, !Z.eqb_eq. split; [intros [-> ->]; reflexivity|].
    intros H; injection H; auto.
Qed.

Lemma json_eqb_eq a : forall b, json_eqb a b = true <-> a = b.
Proof.
  induction a as [|x|n|s|l IH|m IH] using json_ind'; intros b.
  - destruct b; cbn; split; congruence.
  - destruct b; cbn; try (split; congruence). rewrite Bool.eqb_true_iff. split; congruence.
  - destruct b; cbn; try (split; congruence). rewrite number_eqb_eq. split; congruence.
  - destruct b; cbn; try (split; congruence). rewrite String.eqb_eq. split; congruence.
  - destruct b as [| | | |l'|]; cbn; try (split; congruence).
    transitivity (l = l'); [|split; congruence].
    revert l'. induction IH as [|x l Hx _ IHl]; intros [|y l'];
      try (split; congruence).
    rewrite andb_true_iff, Hx, IHl. split; [intros [-> ->]; reflexivity|intros H; injection H; auto].
  - destruct b as [| | | | |m']; cbn; try (split; congruence).
    transitivity (m = m'); [|split; congruence].
    revert m'. induction IH as [|[k x] m Hx _ IHm]; intros [|[k' y] m'];
      try (split; congruence).
    cbn in Hx. rewrite !andb_true_iff, String.eqb_eq, Hx, IHm.
    split; [intros [[-> ->] ->]; reflexivity|intros H; injection H; auto].
Qed.

Lemma json_eqb_refl a : json_eqb a a = true.
Proof. now apply json_eqb_eq. Qed.

(** ** wf *)
Lemma wf_obj m : wf (JObj m) = true <->
  sorted_keys (map fst m) = true /\ Forall (fun kv => wf (snd kv) = true) m.
Proof. cbn [wf]. rewrite andb_true_iff, forallb_forall, Forall_forall. tauto. Qed.

Lemma wf_arr l : wf (JArr l) = true <-> Forall (fun x => wf x = true) l.
Proof. cbn [wf]. rewrite forallb_forall, Forall_forall. tauto. Qed.

Lemma wf_NoDup m : wf (JObj m) = true -> NoDup (map fst m).
Proof. intros H. apply wf_obj in H as [H _]. now apply sorted_NoDup. Qed.

Lemma mset_In {A} k (v : A) m x : In x (mset k v m) -> x = (k, v) \/ In x m.
Proof.
  induction m as [|[k2 v2] m IH]; cbn; [intuition|].
  destruct (String.compare k k2); cbn; intuition.
Qed.

Lemma mdel_In {A} k (m : list (string * A)) x : In x (mdel k m) -> In x m.
Proof.
  induction m as [|[k2 v2] m IH]; cbn; [tauto|].
  destruct (String.eqb k k2); cbn; intuition.
Qed.

Lemma wf_mset k v m : wf v = true -> wf (JObj m) = true -> wf (JObj (mset k v m)) = true.
Proof.
  intros Hv Hm. apply wf_obj in Hm as [S F]. apply wf_obj. split; [now apply sorted_mset|].
  rewrite Forall_forall in *. intros x Hx. apply mset_In in Hx as [->|Hx]; auto.
Qed.

Lemma wf_mdel k m : wf (JObj m) = true -> wf (JObj (mdel k m)) = true.
Proof.
  intros Hm. apply wf_obj in Hm as [S F]. apply wf_obj. split; [now apply sorted_mdel|].
  rewrite Forall_forall in *. intros x Hx. apply mdel_In in Hx. auto.
Qed.

Lemma wf_mget k v m : wf (JObj m) = true -> mget k m = Some v -> wf v = true.
Proof.
  intros Hm Hg. apply wf_obj in Hm as [_ F]. rewrite Forall_forall in F.
  apply mget_In in Hg. apply (F (k, v) Hg).
Qed.

Lemma depth_In_arr x l : In x l -> depth x < depth (JArr l).
Proof.
  cbn [depth]. induction l as [|y l IH]; cbn; [tauto|].
  intros [->|H]; [lia|]. specialize (IH H). lia.
Qed.

Lemma depth_In_obj kv m : In kv m -> depth (snd kv) < depth (JObj m).
Proof.
  cbn [depth]. induction m as [|y m IH]; cbn; [tauto|].
  intros [->|H]; [lia|]. specialize (IH H). lia.
Qed.

Lemma depth_pos j : 0 < depth j.
Proof. destruct j; cbn; lia. Qed.
