(** Termination of generation (C14). *)
From Coq Require Import String Ascii List ZArith Bool Lia Relations Wf_nat.
From Verif Require Import Json JsonFacts Encoding Pointer SchemaApi Generate GenerateSpec GenerateProofs GenerateRun.
Import ListNotations.
Open Scope string_scope.
Open Scope list_scope.

(** ** Counting *)
Lemma filter_length_le {A} (p q : A -> bool) l :
  (forall x, In x l -> p x = true -> q x = true) ->
  length (filter p l) <= length (filter q l).
Proof.
  induction l as [|x l IH]; cbn; intros H; [lia|].
  specialize (IH (fun y Hy => H y (or_intror Hy))). pose proof (H x (or_introl eq_refl)) as Hx.
  destruct (p x); [rewrite (Hx eq_refl); cbn; lia|]. destruct (q x); cbn; lia.
Qed.

Lemma filter_length_lt {A} (p q : A -> bool) l a :
  (forall x, In x l -> p x = true -> q x = true) -> In a l -> p a = false -> q a = true ->
  length (filter p l) < length (filter q l).
Proof.
  induction l as [|x l IH]; cbn; intros H Ha Hp Hq; [contradiction|].
  assert (HL : forall y, In y l -> p y = true -> q y = true) by auto.
  pose proof (filter_length_le p q l HL) as HLe. pose proof (H x (or_introl eq_refl)) as Hx.
  destruct Ha as [->|Ha].
  - rewrite Hp, Hq. cbn. lia.
  - specialize (IH HL Ha Hp Hq). destruct (p x); [rewrite (Hx eq_refl); cbn; lia|].
    destruct (q x); cbn; lia.
Qed.

(** ** An acyclic relation on a finite type is well-founded *)
Section Acyclic.
Context {A : Type}.
Variable E : A -> A -> Prop.
Variable all : list A.
Hypothesis Hall : forall x, In x all.
Hypothesis Hacyclic : forall x, ~ clos_trans A E x x.

Lemma acyclic_acc k : forall path t,
  length all - length path <= k -> NoDup path ->
  (forall x, In x path -> clos_trans A E x t) ->
  Acc (fun y x => E x y) t.
Proof.
  induction k as [|k IH]; intros path t Hk ND Hp; constructor; intros u Hu.
  - exfalso. assert (HN : NoDup (t :: path)).
    { constructor; [|exact ND]. intros Hin. exact (Hacyclic _ (Hp _ Hin)). }
    assert (HI : incl (t :: path) all) by (intros x _; apply Hall).
    pose proof (NoDup_incl_length HN HI) as HL. cbn in HL. lia.
  - apply (IH (t :: path)).
    + cbn. assert (HN : NoDup (t :: path)).
      { constructor; [|exact ND]. intros Hin. exact (Hacyclic _ (Hp _ Hin)). }
      assert (HI : incl (t :: path) all) by (intros x _; apply Hall).
      pose proof (NoDup_incl_length HN HI) as HL. cbn in HL. lia.
    + constructor; [|exact ND]. intros Hin. exact (Hacyclic _ (Hp _ Hin)).
    + intros x [<-|Hx]; [now apply t_step|]. eapply t_trans; [now apply Hp|now apply t_step].
Qed.

Lemma acyclic_wf : well_founded (fun y x => E x y).
Proof.
  intros t. apply (acyclic_acc (length all) [] t); [cbn; lia|constructor|intros x []].
Qed.
End Acyclic.

Section Term.
Context {Ty St : Type}.
Variable info : Ty -> tyinfo Ty St.
Notation gen := (gen Ty St).
Notation prog := (prog Ty St).
Notation handler := (Ty -> gen -> option (json * gen)).

(** [t]'s implementation may run [u]'s without the generator being able to cut the recursion. *)
Definition direct (t u : Ty) : Prop :=
  may_call u (t_body (info t)) \/ (may_sub u (t_body (info t)) /\ t_inline (info u) = true).

Variable ids : list string.
Hypothesis Hids : forall t, In (t_id (info t)) ids.
Hypothesis Hwf : well_founded (fun u t => direct t u).
Hypothesis Hrights : all_allowed no_edit_no_fork info.

Definition undefined (g : gen) (i : string) : bool :=
  match uget (i, s_contract (g_set g)) (g_names g) with
  | Some n => negb (mhas n (g_defs g))
  | None => true
  end.
Definition undefs (g : gen) : nat := length (filter (undefined g) ids).
Definition idle (g : gen) (i : string) : bool :=
  negb (umem (i, s_contract (g_set g)) (g_pending g)).
Definition idles (g : gen) : nat := length (filter (idle g) ids).

Lemma rights_no_edit (p : prog) : allowed no_edit_no_fork p -> allowed no_edit p.
Proof. induction p; cbn; intuition; discriminate. Qed.

Lemma Hedit : all_allowed no_edit info.
Proof. intros t. apply rights_no_edit, Hrights. Qed.

Lemma undefs_grows g g' : grows info g g' -> undefs g' <= undefs g.
Proof.
  intros [l [F _ HD _ _ _]]. apply filter_length_le. intros i _. unfold undefined.
  rewrite (fr_set _ _ F). destruct (uget (i, _) (g_names g)) as [n|] eqn:E.
  - apply (fr_names _ _ F) in E. rewrite E. intros H. destruct (mhas n (g_defs g)) eqn:EH; [|reflexivity].
    apply mhas_mget in EH as [d Hd]. apply HD in Hd.
    assert (mhas n (g_defs g') = true) as HH by (apply mhas_mget; eauto). now rewrite HH in H.
  - auto.
Qed.

Lemma idles_frame g g' : frame g g' -> idles g' = idles g.
Proof. intros F. unfold idles, idle. now rewrite (fr_set _ _ F), (fr_pending _ _ F). Qed.

(** the state in which json_schema_internal calls the implementation *)
Definition entered (u : uid) (g : gen) : gen :=
  if umem u (g_pending g) then g else with_pending (u :: g_pending g) g.

Lemma internal_returns (js : handler) t u g :
  (exists x, js t (entered u g) = Some x) -> exists x, json_schema_internal js t u g = Some x.
Proof.
  unfold json_schema_internal, entered. intros [[s g'] H].
  destruct (umem u (g_pending g)); cbn [negb]; rewrite H; eauto.
Qed.

Lemma idles_entered u g : idles (entered u g) <= idles g.
Proof.
  unfold entered. destruct (umem u (g_pending g)) eqn:E; [lia|].
  apply filter_length_le. intros i _. unfold idle. cbn.
  destruct (uid_eqb _ u); [discriminate|]. auto.
Qed.

Lemma idles_entered_lt t g : umem (uid_of info g t) (g_pending g) = false ->
  idles (entered (uid_of info g t) g) < idles g.
Proof.
  intros H. unfold entered. rewrite H. apply filter_length_lt with (a := t_id (info t)).
  - intros i _. unfold idle. cbn. destruct (uid_eqb _ (uid_of info g t)); [discriminate|]. auto.
  - apply Hids.
  - unfold idle. cbn. unfold uid_of. now rewrite uid_eqb_refl.
  - unfold idle. unfold uid_of in H. now rewrite H.
Qed.

Lemma undefs_entered u g : undefs (entered u g) = undefs g.
Proof. unfold entered. destruct (umem u (g_pending g)); reflexivity. Qed.

Lemma undefs_roots r g : undefs (with_roots r g) = undefs g.
Proof. reflexivity. Qed.

Definition returns (t : Ty) (g : gen) : Prop := exists n x, json_schema info n t g = Some x.

(** Calls that cannot recurse through [t] again without progress. *)
Section Prog.
Variables a b : nat.
Variable ok : Ty -> Prop.
(* implementations reached without a new definition or a new pending type *)
Hypothesis Hok : forall u g, ok u -> undefs g <= a -> idles g <= b -> returns u g.
(* implementations run inside a new pending type *)
Hypothesis Hpend : forall u g, undefs g <= a -> idles g < b -> returns u g.
(* implementations run for a new definition *)
Hypothesis Hdef : forall u g, undefs g < a -> returns u g.

Lemma sub_returns u g : undefs g <= a -> idles g <= b ->
  (t_inline (info u) = true -> ok u) ->
  exists n x, subschema_for info (json_schema info n) u g = Some x.
Proof.
  intros Ha Hb Ho. unfold subschema_for. destruct (find_ref info u g) as [[[r i] g1]|] eqn:E.
  - pose proof (find_ref_name _ _ _ _ _ _ E) as HN.
    pose proof (find_ref_frame _ _ _ _ _ _ E) as F.
    destruct HN as [(_ & -> & _)|(n & _ & HN & HD & -> & HG)]; [exists 0; eauto|].
    destruct (mhas n (g_defs g)) eqn:EH; [exists 0; eauto|].
    set (g2 := emit (EvRef (g_roots g) u r) g1).
    set (g3 := with_defs (mset n (JBool false) (g_defs g2)) g2).
    assert (L : undefs g3 < a).
    { eapply Nat.lt_le_trans; [|exact Ha]. apply filter_length_lt with (a := t_id (info u)).
      - intros i _. unfold undefined. unfold g3, g2; cbn. rewrite HD, (fr_set _ _ F).
        destruct (uget (i, _) (g_names g)) as [m|] eqn:Em; [|auto].
        apply (fr_names _ _ F) in Em. rewrite Em. unfold mhas at 1. rewrite mget_mset.
        destruct (String.eqb m n); [discriminate|auto].
      - apply Hids.
      - unfold undefined, g3, g2; cbn. rewrite (fr_set _ _ F). unfold uid_of in HN. rewrite HN.
        unfold mhas. now rewrite mget_mset, String.eqb_refl.
      - unfold undefined. fold (uid_of info g u).
        destruct HG as [->|(_ & HG & _)]; [rewrite HN, EH; reflexivity|now rewrite HG]. }
    rewrite <- (undefs_entered (uid_of info g u)) in L. destruct (Hdef u _ L) as (m & x & Hx).
    exists m. unfold insert_new_subschema_for. fold g2 g3.
    destruct (internal_returns (json_schema info m) u (uid_of info g u) g3) as [[s g4] H4]; [eauto|].
    rewrite H4. eauto.
  - destruct (t_inline (info u)) eqn:EI.
    + destruct (Hok u (entered (uid_of info g u) g)) as (m & x & Hx).
      { now apply Ho. } { now rewrite undefs_entered. }
      { pose proof (idles_entered (uid_of info g u) g). lia. }
      exists m. apply internal_returns. eauto.
    + assert (HM : umem (uid_of info g u) (g_pending g) = false).
      { unfold find_ref in E. rewrite EI in E. cbn [negb andb] in E.
        destruct (umem (uid_of info g u) (g_pending g)); [|reflexivity].
        rewrite orb_true_r in E. cbn in E.
        destruct (match g_roots g with [] => false | r0 :: _ => uid_eqb r0 _ end); [discriminate|].
        destruct (uget _ _); discriminate. }
      destruct (Hpend u (entered (uid_of info g u) g)) as (m & x & Hx).
      { now rewrite undefs_entered. } { pose proof (idles_entered_lt u g HM). lia. }
      exists m. apply internal_returns. eauto.
Qed.

Lemma root_returns u g : undefs g <= a -> idles g <= b -> ok u ->
  exists n x, root_schema_for info (json_schema info n) u g = Some x.
Proof.
  intros Ha Hb Ho. unfold root_schema_for.
  set (g0 := with_roots (uid_of info g u :: g_roots g) g).
  destruct (Hok u (entered (uid_of info g u) g0)) as (m & x & Hx); [exact Ho|..].
  { now rewrite undefs_entered. }
  { pose proof (idles_entered (uid_of info g u) g0). unfold g0 in *. cbn in *. 
    change (idles (with_roots (uid_of info g u :: g_roots g) g)) with (idles g) in *. lia. }
  destruct (internal_returns (json_schema info m) u (uid_of info g u) g0) as [[s g4] H4]; [eauto|].
  exists m. rewrite H4. destruct (apply_transforms _ _). eauto.
Qed.

Lemma prog_returns p : allowed no_edit_no_fork p ->
  (forall u, may_call u p -> ok u) -> (forall u, may_sub u p -> t_inline (info u) = true -> ok u) ->
  forall g, undefs g <= a -> idles g <= b -> exists n x, run_prog info (json_schema info n) p g = Some x.
Proof.
  induction p as [s0|t k IH|t k IH|t k IH|k IH|k IH|f k IH|c k IH|p IHp k IH];
    intros Hr Hc Hs g Ha Hb; cbn [run_prog allowed may_call may_sub] in *;
    try (destruct Hr as [Hr _]; discriminate).
  - exists 0. eauto.
  - destruct (sub_returns t g Ha Hb) as (n & [s g1] & E); [intros Hi; apply Hs; auto|].
    assert (G : grows info g g1). { eapply subschema_grows; [|exact E]. apply json_schema_grows, Hedit. }
    destruct (IH s (Hr s)) with (g := g1) as (m & x & E2).
    + intros u Hu. apply Hc. eauto.
    + intros u Hu. apply Hs. eauto.
    + pose proof (undefs_grows _ _ G). lia.
    + destruct G as [l G]. rewrite (idles_frame _ _ (ad_frame _ _ _ _ G)). exact Hb.
    + exists (max n m), x. rewrite (subschema_le info n (max n m)) with (x := (s, g1)); [|lia|exact E].
      apply (run_le info m (max n m)); [lia|exact E2].
  - destruct (Hok t g) as (n & [s g1] & E); auto.
    assert (G : grows info g g1) by (eapply json_schema_grows; [apply Hedit|exact E]).
    destruct (IH s (Hr s)) with (g := g1) as (m & x & E2).
    + intros u Hu. apply Hc. eauto.
    + intros u Hu. apply Hs. eauto.
    + pose proof (undefs_grows _ _ G). lia.
    + destruct G as [l G]. rewrite (idles_frame _ _ (ad_frame _ _ _ _ G)). exact Hb.
    + exists (max n m), x. rewrite (json_schema_le info n (max n m)) with (x := (s, g1)); [|lia|exact E].
      apply (run_le info m (max n m)); [lia|exact E2].
  - destruct Hr as [_ Hr]. destruct (root_returns t g Ha Hb) as (n & [s g1] & E); auto.
    assert (G : grows info g g1). { eapply root_grows; [|exact E]. apply json_schema_grows, Hedit. }
    destruct (IH s (Hr s)) with (g := g1) as (m & x & E2).
    + intros u Hu. apply Hc. eauto.
    + intros u Hu. apply Hs. eauto.
    + pose proof (undefs_grows _ _ G). lia.
    + destruct G as [l G]. rewrite (idles_frame _ _ (ad_frame _ _ _ _ G)). exact Hb.
    + exists (max n m), x. rewrite (root_le info n (max n m)) with (x := (s, g1)); [|lia|exact E].
      apply (run_le info m (max n m)); [lia|exact E2].
  - apply IH; auto.
    + intros u Hu. apply Hc. eauto.
    + intros u Hu. apply Hs. eauto.
  - destruct Hr as [_ Hr]. apply IH; auto.
    + intros u Hu. apply Hc. eauto.
    + intros u Hu. apply Hs. eauto.
Qed.
End Prog.

Lemma all_return : forall a b t g, undefs g <= a -> idles g <= b -> returns t g.
Proof.
  intros a. induction a as [a IHa] using lt_wf_ind. intros b. induction b as [b IHb] using lt_wf_ind.
  intros t. induction t as [t IHt] using (well_founded_induction Hwf). intros g Ha Hb.
  destruct (prog_returns a b (fun u => direct t u)) with (p := t_body (info t)) (g := emit (EvRun t) g)
    as (n & [s g'] & E).
  - intros u g0 Hu Ha0 Hb0. apply IHt; auto.
  - intros u g0 Ha0 Hb0. destruct b as [|b]; [lia|]. apply (IHb (idles g0)); auto.
  - intros u g0 Ha0. apply (IHa (undefs g0)) with (b := idles g0); auto.
  - apply Hrights.
  - intros u Hu. now left.
  - intros u Hu Hi. now right.
  - exact Ha.
  - exact Hb.
  - exists (S n). cbn [json_schema]. rewrite E. eauto.
Qed.

Theorem programs_return p g : allowed no_edit_no_fork p -> exists n x, run info n p g = Some x.
Proof.
  intros Hp. apply (prog_returns (undefs g) (idles g) (fun _ => True)); auto.
  - intros u g0 _ H1 H2. eapply all_return; eauto.
  - intros u g0 H1 H2. eapply all_return; eauto.
  - intros u g0 H1. eapply all_return; [|eauto]. eauto.
Qed.

End Term.
