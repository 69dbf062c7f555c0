(** What the trace says about inlining (C20), and cloned generators (C17). *)
From Coq Require Import String Ascii List ZArith Bool Lia.
From Verif Require Import Json JsonFacts Encoding Pointer SchemaApi Generate GenerateSpec GenerateProofs GenerateRun.
Import ListNotations.
Open Scope string_scope.
Open Scope list_scope.

Section Trace.
Context {Ty St : Type}.
Variable info : Ty -> tyinfo Ty St.
Notation gen := (gen Ty St).
Notation prog := (prog Ty St).
Notation handler := (Ty -> gen -> option (json * gen)).

(** Every reference in the trace was for a type that may be referenced; with [inline_subschemas]
    for a type whose implementation was running. Every definition was preceded by a reference to
    it. *)
Fixpoint refs_ok (s : settings St) (base l : list (event Ty)) : Prop :=
  match l with
  | [] => True
  | EvRef _ t _ :: l' =>
      t_inline (info t) = false
      /\ (s_inline s = true ->
          exists t', In t' (running (l' ++ base)) /\ t_id (info t') = t_id (info t))
      /\ refs_ok s base l'
  | EvDef t k _ :: l' =>
      (exists rs, In (EvRef rs t (reference (s_path s) k)) (l' ++ base)) /\ refs_ok s base l'
  | _ :: l' => refs_ok s base l'
  end.

Lemma refs_ok_app s base l2 l1 :
  refs_ok s base l1 -> refs_ok s (l1 ++ base) l2 -> refs_ok s base (l2 ++ l1).
Proof.
  intros H1. induction l2 as [|e l2 IH]; cbn; [auto|].
  destruct e; rewrite <- ?app_assoc; intuition.
Qed.

Lemma refs_ok_at s base l2 rs t r l1 : refs_ok s base (l2 ++ EvRef rs t r :: l1) ->
  t_inline (info t) = false /\ (s_inline s = true ->
          exists t', In t' (running (l1 ++ base)) /\ t_id (info t') = t_id (info t)).
Proof.
  induction l2 as [|e l2 IH]; cbn; [intuition|]. destruct e; intuition.
Qed.

Lemma refs_ok_def s base t k d l : refs_ok s base l -> In (EvDef t k d) l ->
  exists rs, In (EvRef rs t (reference (s_path s) k)) (l ++ base).
Proof.
  induction l as [|e l IH]; [intros _ []|]. intros H [->|Hi].
  - cbn in H. destruct H as [[rs H] _]. exists rs. now right.
  - assert (H' : refs_ok s base l) by (destruct e; cbn in H; intuition).
    destruct (IH H' Hi) as [rs H0]. exists rs. now right.
Qed.

Definition pend_ok (g : gen) : Prop := forall u, In u (g_pending g) ->
  exists t, In t (running (g_log g)) /\ uid_of info g t = u.

Definition traced (pre : Prop) (g g' : gen) : Prop :=
  frame g g' /\ exists l, g_log g' = l ++ g_log g
    /\ (forall base, running (l ++ base) = running base)
    /\ (pre -> refs_ok (g_set g) (g_log g) l).

Definition traces (g g' : gen) : Prop := traced (pend_ok g) g g'.

Lemma pend_ok_traced pre g g' : traced pre g g' -> pend_ok g -> pend_ok g'.
Proof.
  intros [F (l & E & HR & _)] H u Hu. rewrite (fr_pending _ _ F) in Hu.
  destruct (H u Hu) as (t & Ht & HU). exists t. rewrite E, HR. split; [exact Ht|].
  rewrite (uid_of_set info g g'); [exact HU|apply (fr_set _ _ F)].
Qed.

Lemma traces_refl g : traces g g.
Proof. split; [apply frame_refl|]. exists []. cbn. auto. Qed.

Lemma traced_trans pre a b c : traced pre a b -> (pre -> pend_ok b) -> traces b c -> traced pre a c.
Proof.
  intros A HP [FB (l2 & B & RB & HB)]. destruct A as [FA (l1 & A & RA & HA)].
  split; [eapply frame_trans; eauto|]. exists (l2 ++ l1).
  split; [now rewrite B, A, app_assoc|]. split.
  - intros base. now rewrite <- app_assoc, RB, RA.
  - intros H. apply refs_ok_app; [auto|]. rewrite <- A. rewrite <- (fr_set _ _ FA). auto.
Qed.

Lemma traces_trans a b c : traces a b -> traces b c -> traces a c.
Proof. intros A B. eapply traced_trans; [exact A| |exact B]. intros H. eapply pend_ok_traced; eauto. Qed.

Lemma traces_quiet g g' : frame g g' -> g_log g' = g_log g -> traces g g'.
Proof. intros F E. split; [exact F|]. exists []. cbn. auto. Qed.

(** Entering an implementation: the generator may already list [t] itself as pending. *)
Definition entering (t : Ty) (g : gen) : Prop := forall u, In u (g_pending g) ->
  u = uid_of info g t \/ exists t', In t' (running (g_log g)) /\ uid_of info g t' = u.

Definition js_traces (js : handler) : Prop :=
  forall t g s g', js t g = Some (s, g') -> traced (entering t g) g g'.

Lemma traced_weaken (p q : Prop) g g' : (q -> p) -> traced p g g' -> traced q g g'.
Proof. intros H [F (l & E & R & HH)]. split; [exact F|]. exists l. auto. Qed.

Lemma internal_traces (js : handler) t g s g' :
  js_traces js ->
  json_schema_internal js t (uid_of info g t) g = Some (s, g') -> traces g g'.
Proof.
  intros H E. split.
  { eapply internal_frame; [|exact E]. intros x y z Hx. apply (H _ _ _ _ Hx). }
  unfold json_schema_internal in E. destruct (umem _ (g_pending g)); cbn [negb] in E.
  - destruct (js t g) as [[s2 g2]|] eqn:E2; [|discriminate]. injection E as <- <-.
    apply H in E2 as [_ (l & A & B & C)]. exists l. repeat split; auto.
    intros HP. apply C. intros u Hu. right. now apply HP.
  - destruct (js t _) as [[s2 g2]|] eqn:E2; [|discriminate].
    injection E as <- <-. apply H in E2 as [_ (l & A & B & C)]. exists l. repeat split; auto.
    intros HP. apply C. intros u Hu. cbn in Hu. destruct Hu as [<-|Hu]; [now left|]. right.
    now apply HP.
Qed.

Lemma subschema_traces (js : handler) t g s g' :
  js_traces js -> subschema_for info js t g = Some (s, g') -> traces g g'.
Proof.
  intros H. unfold subschema_for. destruct (find_ref info t g) as [[[r i] g1]|] eqn:E.
  2: now apply internal_traces.
  pose proof (find_ref_frame _ _ _ _ _ _ E) as F.
  assert (EL : g_log g1 = g_log g).
  { apply find_ref_name in E as [(_ & _ & -> & _)|(n & _ & _ & _ & _ & [->|(-> & _)])]; reflexivity. }
  assert (S : traces g (emit (EvRef (g_roots g) t r) g1)).
  { split; [eapply frame_trans; [exact F|apply frame_emit]|]. exists [EvRef (g_roots g) t r].
    cbn. rewrite EL. repeat split.
    - eapply find_ref_inline; eauto.
    - intros HI. unfold find_ref in E. rewrite HI in E.
      destruct (negb (negb (t_inline (info t)) && (negb true || umem (uid_of info g t) (g_pending g)))) eqn:EB;
        [discriminate|].
      apply negb_false_iff, andb_true_iff in EB as [_ EB]. cbn in EB. apply umem_In in EB.
      destruct (H0 _ EB) as (t' & H1 & H2). exists t'. split; [exact H1|].
      unfold uid_of in H2. congruence. }
  destruct i as [n|].
  - unfold insert_new_subschema_for.
    assert (EU : uid_of info (with_defs (mset n (JBool false)
                   (g_defs (emit (EvRef (g_roots g) t r) g1))) (emit (EvRef (g_roots g) t r) g1)) t
                 = uid_of info g t). { apply uid_of_set. cbn. apply (fr_set _ _ F). }
    rewrite <- EU.
    destruct (json_schema_internal _ _ _ _) as [[s2 g2]|] eqn:E2; [|discriminate].
    intros [= <- <-]. apply internal_traces in E2; [|exact H].
    assert (Hr : r = reference (s_path (g_set g)) n).
    { apply find_ref_name in E as [(_ & HH & _)|(m & -> & _ & _ & HI & _)]; [discriminate|].
      destruct (mhas m (g_defs g)); congruence. }
    set (g0 := emit (EvRef (g_roots g) t r) g1) in *.
    assert (S2 : traces g0 g2).
    { eapply traces_trans; [|exact E2]. apply traces_quiet; [now apply frame_same|reflexivity]. }
    assert (S3 : traces g g2) by (eapply traces_trans; eauto).
    destruct S3 as [F3 (l & A & B & C)]. split.
    + eapply frame_trans; [exact F3|]. eapply frame_trans; [|apply frame_emit]. now apply frame_same.
    + exists (EvDef t n s2 :: l). cbn. repeat split.
      * now rewrite A.
      * exact B.
      * exists (g_roots g). rewrite <- A, <- Hr.
        destruct S2 as [_ (l' & A' & _)]. rewrite A'. apply in_app_iff. right. unfold g0. cbn. now left.
      * auto.
  - intros [= <- <-]. exact S.
Qed.

Lemma root_traces (js : handler) t g s g' :
  js_traces js -> root_schema_for info js t g = Some (s, g') -> traces g g'.
Proof.
  intros H E. split.
  { eapply root_frame; [|exact E]. intros x y z Hx. apply (H _ _ _ _ Hx). }
  unfold root_schema_for in E.
  destruct (json_schema_internal _ _ _ _) as [[s1 g1]|] eqn:E1; [|discriminate].
  destruct (apply_transforms _ _) as [s2 g2] eqn:E2. injection E as <- <-.
  apply apply_transforms_frame in E2 as [st ->].
  pose proof (internal_traces js t (with_roots (uid_of info g t :: g_roots g) g) s1 g1 H E1)
    as [_ (l & A & B & C)].
  exists l. repeat split; auto.
Qed.

Lemma prog_traces (js : handler) p : js_traces js ->
  forall g s g', run_prog info js p g = Some (s, g') -> traces g g'.
Proof.
  intros H. apply (run_prog_rel info js any_rights traces traces_refl traces_trans).
  - intros t g s g' E. eapply traced_weaken; [|apply (H _ _ _ _ E)].
    intros HP u Hu. right. now apply HP.
  - intros. eapply subschema_traces; eauto.
  - intros _ t g s g' E. eapply root_traces; eauto.
  - intros _ d g. apply traces_quiet; [now apply frame_same|reflexivity].
  - intros _ st g. apply traces_quiet; [now apply frame_same|reflexivity].
  - apply allowed_any.
Qed.

Lemma json_schema_traces n : js_traces (json_schema info n).
Proof.
  induction n as [|n IH]; intros t g s g' H; cbn [json_schema] in H; [discriminate|].
  destruct (run_prog _ _ _ _) as [[s0 g0]|] eqn:H0; [|discriminate]. injection H as <- <-.
  apply (prog_traces _ _ IH) in H0 as [F (l & A & B & C)]. cbn in A.
  split.
  - eapply frame_trans; [apply frame_emit|]. eapply frame_trans; [exact F|apply frame_emit].
  - exists (EvRet t :: l ++ [EvRun t]). cbn. repeat split.
    + rewrite A. now rewrite <- app_assoc.
    + intros base. rewrite <- app_assoc, B. reflexivity.
    + intros HE. apply refs_ok_app; [cbn; auto|]. apply C.
      intros u Hu. cbn in Hu. destruct (HE u Hu) as [->|(t' & H1 & H2)].
      * exists t. split; [now left|reflexivity].
      * exists t'. split; [now right|exact H2].
Qed.

Theorem run_traces n p g s g' : run info n p g = Some (s, g') -> traces g g'.
Proof. apply prog_traces, json_schema_traces. Qed.

Lemma run_refs_ok n p s st x g :
  run info n p (new_gen s st) = Some (x, g) -> refs_ok s [] (g_log g).
Proof.
  intros H. apply run_traces in H as [_ (l & A & _ & C)]. cbn in A. rewrite app_nil_r in A.
  rewrite A. apply C. intros u [].
Qed.

(** ** Clones, for types whose names tell them apart *)
Hypothesis Hnames : forall t u, t_id (info t) = t_id (info u) <-> t_name (info t) = t_name (info u).

Record cinv (P : list string) (g : gen) : Prop := {
  ci_names : forall u n, uget u (g_names g) = Some n ->
    exists t, u = uid_of info g t /\ n = t_name (info t);
  ci_used : forall n, In n (g_used g) -> exists u, uget u (g_names g) = Some n;
  ci_defs : forall k d, mget k (g_defs g) = Some d ->
    exists t, k = t_name (info t) /\ (In (EvDef t k d) (g_log g) \/ In k P);
  ci_sorted : sorted_keys (map fst (g_defs g)) = true }.

Lemma cinv_new s st : cinv [] (new_gen s st).
Proof. split; cbn; try discriminate; try reflexivity; intros; contradiction. Qed.

Lemma cinv_clone P g : cinv P g -> cinv P (clone_gen g).
Proof. intros [A B C S]. split; cbn; try discriminate; auto; intros; contradiction. Qed.

Lemma cinv_same P g g' :
  g_set g' = g_set g -> g_names g' = g_names g -> g_used g' = g_used g -> g_defs g' = g_defs g ->
  incl (g_log g) (g_log g') -> cinv P g -> cinv P g'.
Proof.
  intros E1 E2 E3 E4 E5 [A B C S]. split; rewrite ?E2, ?E3, ?E4; auto.
  - intros u n H. destruct (A u n H) as (t & H1 & H2). exists t. split; [|exact H2].
    now rewrite (uid_of_set info g g').
  - intros k d H. destruct (C k d H) as (t & H1 & [H2|H2]); exists t; auto.
Qed.

Definition ckeeps (g g' : gen) : Prop := frame g g' /\ forall P, cinv P g -> cinv P g'.

Lemma ckeeps_refl g : ckeeps g g.
Proof. split; [apply frame_refl|auto]. Qed.

Lemma ckeeps_trans a b c : ckeeps a b -> ckeeps b c -> ckeeps a c.
Proof. intros [A1 A2] [B1 B2]. split; [eapply frame_trans; eauto|auto]. Qed.

Lemma ckeeps_emit e g : ckeeps g (emit e g).
Proof.
  split; [apply frame_emit|]. intros P. apply cinv_same; try reflexivity. intros x Hx. now right.
Qed.

Lemma internal_ckeeps (js : handler) t u g s g' :
  (forall g s g', js t g = Some (s, g') -> ckeeps g g') ->
  json_schema_internal js t u g = Some (s, g') -> ckeeps g g'.
Proof.
  intros H E. split; [eapply internal_frame; [|exact E]; intros; eapply H; eauto|].
  intros P I. unfold json_schema_internal in E. destruct (umem u (g_pending g)); cbn [negb] in E.
  - destruct (js t g) as [[s2 g2]|] eqn:E2; [|discriminate]. injection E as <- <-.
    now apply H in E2 as [_ E2]; apply E2.
  - destruct (js t (with_pending (u :: g_pending g) g)) as [[s2 g2]|] eqn:E2; [|discriminate].
    injection E as <- <-. apply H in E2 as [_ E2].
    eapply cinv_same; [..|apply (E2 P)]; try reflexivity; try apply incl_refl.
    eapply cinv_same; [..|exact I]; try reflexivity. apply incl_refl.
Qed.

(** In such a state the name of a referenced type is its own. *)
Lemma find_ref_own_name P t g r i g1 : cinv P g ->
  find_ref info t g = Some (r, i, g1) ->
  cinv P g1 /\ ((r = "#" /\ i = None /\ hd_error (g_roots g) = Some (uid_of info g t)) \/
   (r = reference (s_path (g_set g)) (t_name (info t))
    /\ i = if mhas (t_name (info t)) (g_defs g) then None else Some (t_name (info t)))).
Proof.
  intros I E. pose proof (find_ref_frame _ _ _ _ _ _ E) as F.
  apply find_ref_name in E as [(-> & -> & -> & HR)|(n & -> & HN & HD & -> & HG)]; [auto|].
  destruct HG as [->|(HG & HNone & Hn)].
  - split; [exact I|]. right. destruct (ci_names _ _ I _ _ HN) as (t' & H1 & ->).
    assert (t_id (info t) = t_id (info t')) as HI by (unfold uid_of in H1; congruence).
    apply Hnames in HI. now rewrite HI.
  - assert (n = t_name (info t)) as ->.
    { rewrite Hn. unfold choose_name. destruct (smem (t_name (info t)) (g_used g)) eqn:ES; [|reflexivity].
      exfalso. apply smem_In in ES. destruct (ci_used _ _ I _ ES) as [u Hu].
      destruct (ci_names _ _ I _ _ Hu) as (t' & H1 & H2). apply Hnames in H2.
      assert (uid_of info g t = u) as HU by (subst u; unfold uid_of; congruence). congruence. }
    split; [|now right]. subst g1. clear HN HD Hn. destruct I as [A B C S]. split; cbn; auto.
    + intros u m. destruct (uid_eqb u (uid_of info g t)) eqn:EU; [|apply A].
      apply uid_eqb_eq in EU. intros [= <-]. exists t. auto.
    + intros m [<-|Hm].
      * exists (uid_of info g t). now rewrite uid_eqb_refl.
      * destruct (B m Hm) as [u Hu]. exists u. destruct (uid_eqb u (uid_of info g t)) eqn:EU; [|exact Hu].
        apply uid_eqb_eq in EU. congruence.
Qed.

Lemma subschema_ckeeps (js : handler) t g s g' :
  (forall g s g', js t g = Some (s, g') -> ckeeps g g') ->
  subschema_for info js t g = Some (s, g') -> ckeeps g g'.
Proof.
  intros H E. split.
  { eapply subschema_frame; [|exact E]. intros. eapply H; eauto. }
  intros P I. unfold subschema_for in E. destruct (find_ref info t g) as [[[r i] g1]|] eqn:EF.
  2: { eapply internal_ckeeps; eauto. }
  destruct (find_ref_own_name _ _ _ _ _ _ I EF) as [I1 HR].
  assert (I2 : cinv P (emit (EvRef (g_roots g) t r) g1)) by now apply ckeeps_emit.
  destruct i as [n|]; [|now injection E as <- <-].
  assert (n = t_name (info t)) as ->.
  { destruct HR as [(_ & HH & _)|[_ HH]]; [discriminate|]. destruct (mhas _ _); congruence. }
  unfold insert_new_subschema_for in E.
  destruct (json_schema_internal _ _ _ _) as [[s2 g2]|] eqn:E2; [|discriminate].
  injection E as <- <-. apply internal_ckeeps in E2 as [_ K]; [|exact H].
  assert (I3 : cinv (t_name (info t) :: P) g2).
  { apply K. clear K. destruct I2 as [A B C S]. split; cbn; auto.
    - intros k d. rewrite mget_mset. destruct (String.eqb k (t_name (info t))) eqn:Ek.
      + apply String.eqb_eq in Ek. intros _. exists t. auto.
      + intros Hk. destruct (C k d Hk) as (t' & H1 & [H2|H2]); exists t'; auto.
    - now apply sorted_mset. }
  destruct I3 as [A B C S]. split; cbn; auto.
  - intros k d. rewrite mget_mset. destruct (String.eqb k (t_name (info t))) eqn:Ek.
    + apply String.eqb_eq in Ek. intros [= <-]. exists t. subst k. auto.
    + intros Hk. destruct (C k d Hk) as (t' & H1 & [H2|[H2|H2]]); exists t'; auto.
      subst k. rewrite H2 in Ek. now rewrite String.eqb_refl in Ek.
  - now apply sorted_mset.
Qed.

Lemma root_ckeeps (js : handler) t g s g' :
  (forall g s g', js t g = Some (s, g') -> ckeeps g g') ->
  root_schema_for info js t g = Some (s, g') -> ckeeps g g'.
Proof.
  intros H E. split; [eapply root_frame; [|exact E]; intros; eapply H; eauto|].
  intros P I. unfold root_schema_for in E.
  destruct (json_schema_internal _ _ _ _) as [[s1 g1]|] eqn:E1; [|discriminate].
  destruct (apply_transforms _ _) as [s2 g2] eqn:E2. injection E as <- <-.
  apply internal_ckeeps in E1 as [_ K]; [|exact H]. apply apply_transforms_frame in E2 as [st ->].
  eapply cinv_same; [..|apply (K P)]; try reflexivity; try apply incl_refl.
  eapply cinv_same; [..|exact I]; try reflexivity; apply incl_refl.
Qed.

Lemma ckeeps_take st g : ckeeps g (with_tst st (with_defs [] g)).
Proof.
  split; [now apply frame_same|]. intros P [A B C S]. split; cbn; auto. discriminate.
Qed.

Lemma json_schema_ckeeps n : all_allowed no_set info ->
  forall t g s g', json_schema info n t g = Some (s, g') -> ckeeps g g'.
Proof.
  intros HA. induction n as [|n IH]; intros t g s g' H; cbn [json_schema] in H; [discriminate|].
  destruct (run_prog _ _ _ _) as [[s0 g0]|] eqn:H0; [|discriminate]. injection H as <- <-.
  eapply ckeeps_trans; [apply (ckeeps_emit (EvRun t))|].
  eapply ckeeps_trans; [|apply (ckeeps_emit (EvRet t))].
  refine (run_prog_rel info _ no_set ckeeps ckeeps_refl ckeeps_trans IH _ _ _ _ _ (HA t) _ _ _ H0).
  - intros. eapply subschema_ckeeps; eauto.
  - intros. eapply root_ckeeps; eauto.
  - discriminate.
  - intros _. exact ckeeps_take.
Qed.

Lemma run_ckeeps n p : all_allowed no_set info -> allowed no_set p ->
  forall g s g', run info n p g = Some (s, g') -> ckeeps g g'.
Proof.
  intros HA Hp g s g'. pose proof (json_schema_ckeeps n HA) as IH.
  refine (run_prog_rel info _ no_set ckeeps ckeeps_refl ckeeps_trans IH _ _ _ _ p Hp g s g').
  - intros. eapply subschema_ckeeps; eauto.
  - intros. eapply root_ckeeps; eauto.
  - discriminate.
  - intros _. exact ckeeps_take.
Qed.

End Trace.
