(** Fuel, replay, termination, root references, running types. *)
From Coq Require Import String Ascii List ZArith Bool Lia Relations Wf_nat.
From Verif Require Import Json JsonFacts Encoding Pointer SchemaApi Generate GenerateSpec GenerateProofs.
Import ListNotations.
Open Scope string_scope.
Open Scope list_scope.

Section Run.
Context {Ty St : Type}.
Variable info : Ty -> tyinfo Ty St.
Notation gen := (gen Ty St).
Notation prog := (prog Ty St).
Notation handler := (Ty -> gen -> option (json * gen)).

(** ** More fuel gives the same answer *)
Section Mono.
Variables js js' : handler.
Hypothesis H : forall t g x, js t g = Some x -> js' t g = Some x.

Lemma internal_mono t u g x :
  json_schema_internal js t u g = Some x -> json_schema_internal js' t u g = Some x.
Proof.
  unfold json_schema_internal. destruct (js t _) as [[s g2]|] eqn:E; [|discriminate].
  now rewrite (H _ _ _ E).
Qed.

Lemma insert_mono t n u g x :
  insert_new_subschema_for js t n u g = Some x -> insert_new_subschema_for js' t n u g = Some x.
Proof.
  unfold insert_new_subschema_for.
  destruct (json_schema_internal js _ _ _) as [[s g2]|] eqn:E; [|discriminate].
  now rewrite (internal_mono _ _ _ _ E).
Qed.

Lemma subschema_mono t g x :
  subschema_for info js t g = Some x -> subschema_for info js' t g = Some x.
Proof.
  unfold subschema_for. destruct (find_ref info t g) as [[[r [n|]] g1]|]; [| |apply internal_mono]; auto.
  destruct (insert_new_subschema_for js _ _ _ _) eqn:E; [|discriminate].
  now rewrite (insert_mono _ _ _ _ _ E).
Qed.

Lemma root_mono t g x :
  root_schema_for info js t g = Some x -> root_schema_for info js' t g = Some x.
Proof.
  unfold root_schema_for.
  destruct (json_schema_internal js _ _ _) as [[s g2]|] eqn:E; [|discriminate].
  now rewrite (internal_mono _ _ _ _ E).
Qed.

Lemma run_prog_mono p : forall g x,
  run_prog info js p g = Some x -> run_prog info js' p g = Some x.
Proof.
  induction p as [s0|t k IH|t k IH|t k IH|k IH|k IH|f k IH|b k IH|p IHp k IH];
    intros g x Hx; cbn [run_prog] in *; auto.
  - destruct (subschema_for info js t g) as [[s1 g1]|] eqn:E; [|discriminate].
    rewrite (subschema_mono _ _ _ E). auto.
  - destruct (js t g) as [[s1 g1]|] eqn:E; [|discriminate]. rewrite (H _ _ _ E). auto.
  - destruct (root_schema_for info js t g) as [[s1 g1]|] eqn:E; [|discriminate].
    rewrite (root_mono _ _ _ E). auto.
  - destruct (take_definitions b g). auto.
  - destruct (run_prog info js p (clone_gen g)) as [[s1 g1]|] eqn:E; [|discriminate].
    rewrite (IHp _ _ E). auto.
Qed.
End Mono.

Lemma json_schema_S n : forall t g x,
  json_schema info n t g = Some x -> json_schema info (S n) t g = Some x.
Proof.
  induction n as [|n IH]; intros t g x Hx; [discriminate|].
  cbn [json_schema] in Hx. destruct (run_prog _ _ _ _) as [[s g']|] eqn:E; [|discriminate].
  apply (run_prog_mono _ _ IH) in E.
  change (match run_prog info (json_schema info (S n)) (t_body (info t)) (emit (EvRun t) g) with
          | Some (s, g') => Some (s, emit (EvRet t) g') | None => None end = Some x).
  now rewrite E.
Qed.

Lemma json_schema_le n m : n <= m -> forall t g x,
  json_schema info n t g = Some x -> json_schema info m t g = Some x.
Proof. induction 1; auto. intros. apply json_schema_S. auto. Qed.

Lemma run_le n m p g x : n <= m -> run info n p g = Some x -> run info m p g = Some x.
Proof. intros L. apply run_prog_mono. now apply json_schema_le. Qed.

Lemma subschema_le n m t g x : n <= m ->
  subschema_for info (json_schema info n) t g = Some x ->
  subschema_for info (json_schema info m) t g = Some x.
Proof. intros L. apply subschema_mono. now apply json_schema_le. Qed.

Lemma root_le n m t g x : n <= m ->
  root_schema_for info (json_schema info n) t g = Some x ->
  root_schema_for info (json_schema info m) t g = Some x.
Proof. intros L. apply root_mono. now apply json_schema_le. Qed.

Lemma run_det n m p g x y : run info n p g = Some x -> run info m p g = Some y -> x = y.
Proof.
  intros A B. apply (run_le n (max n m)) in A; [|lia]. apply (run_le m (max n m)) in B; [|lia].
  congruence.
Qed.

(** ** Replaying a program after it has run *)
Definition agree (g h : gen) : Prop :=
  g_set h = g_set g /\ g_pending h = g_pending g /\ g_roots h = g_roots g
  /\ (forall u n, uget u (g_names g) = Some n -> uget u (g_names h) = Some n)
  /\ (forall k, mhas k (g_defs g) = true -> mhas k (g_defs h) = true).

(** Equal except for the trace. *)
Definition same_state (g h : gen) : Prop :=
  g_set h = g_set g /\ g_tst h = g_tst g /\ g_defs h = g_defs g /\ g_pending h = g_pending g
  /\ g_names h = g_names g /\ g_used h = g_used g /\ g_roots h = g_roots g.

Lemma same_refl g : same_state g g.
Proof. repeat split. Qed.

Lemma same_trans a b c : same_state a b -> same_state b c -> same_state a c.
Proof. unfold same_state. intuition congruence. Qed.

Lemma agree_same g h h' : agree g h -> same_state h h' -> agree g h'.
Proof.
  intros (A1 & A2 & A3 & A4 & A5) (B1 & B2 & B3 & B4 & B5 & B6 & B7).
  repeat split; try congruence; rewrite ?B3, ?B5; auto.
Qed.

Lemma agree_grows g g' h : grows info g g' -> agree g' h -> agree g h.
Proof.
  intros [l A] (B1 & B2 & B3 & B4 & B5). pose proof (ad_frame _ _ _ _ A) as F.
  destruct F as [F1 F2 F3 F4 _]. repeat split; try congruence; auto.
  intros k Hk. apply mhas_mget in Hk as [d Hk]. apply B5, mhas_mget.
  exists d. eapply ad_defs; eauto.
Qed.

Lemma plain_no_edit (p : prog) : allowed plain p -> allowed no_edit p.
Proof.
  induction p; cbn; intuition; try discriminate.
Qed.

Definition replays (js : handler) : Prop := forall t g s g' h,
  js t g = Some (s, g') -> agree g' h -> exists h', js t h = Some (s, h') /\ same_state h h'.

Lemma internal_replay (js : handler) t u g s g' h :
  (forall t g s g', js t g = Some (s, g') -> frame g g') -> replays js ->
  json_schema_internal js t u g = Some (s, g') -> agree g' h ->
  exists h', json_schema_internal js t u h = Some (s, h') /\ same_state h h'.
Proof.
  intros HF HR E A. pose proof (internal_frame js t u g s g' (HF t) E) as F.
  assert (EP : g_pending h = g_pending g).
  { destruct A as (_ & A2 & _). rewrite A2. apply (fr_pending _ _ F). }
  unfold json_schema_internal in *. rewrite EP.
  destruct (umem u (g_pending g)) eqn:EM; cbn [negb] in *.
  - destruct (js t g) as [[s2 g2]|] eqn:E2; [|discriminate]. injection E as <- <-.
    destruct (HR _ _ _ _ _ E2 A) as (h' & -> & S). eauto.
  - destruct (js t (with_pending (u :: g_pending g) g)) as [[s2 g2]|] eqn:E2; [|discriminate].
    injection E as <- <-. pose proof (HF _ _ _ _ E2) as F2.
    destruct (HR _ _ _ _ (with_pending (u :: g_pending g) h) E2) as (h' & E3 & S).
    + destruct A as (A1 & A2 & A3 & A4 & A5). repeat split; auto. cbn.
      symmetry. apply (fr_pending _ _ F2).
    + rewrite E3. eexists. split; [reflexivity|].
      destruct S as (B1 & B2 & B3 & B4 & B5 & B6 & B7). cbn in *. repeat split; cbn; auto.
      rewrite B4, EP. now apply filter_pending.
Qed.

Lemma subschema_replay (js : handler) t g s g' h :
  (forall t g s g', js t g = Some (s, g') -> grows info g g') -> replays js ->
  subschema_for info js t g = Some (s, g') -> agree g' h ->
  exists h', subschema_for info js t h = Some (s, h') /\ same_state h h'.
Proof.
  intros HG HR E A.
  assert (HF : forall t g s g', js t g = Some (s, g') -> frame g g').
  { intros x y z w Hx. destruct (HG _ _ _ _ Hx) as [l Hl]. apply Hl. }
  pose proof (subschema_frame info js t g s g' (HF t) E) as F.
  destruct A as (A1 & A2 & A3 & A4 & A5).
  assert (ES : g_set h = g_set g) by (rewrite A1; apply (fr_set _ _ F)).
  assert (EP : g_pending h = g_pending g) by (rewrite A2; apply (fr_pending _ _ F)).
  assert (ER : g_roots h = g_roots g) by (rewrite A3; apply (fr_roots _ _ F)).
  assert (EU : uid_of info h t = uid_of info g t) by now apply uid_of_set.
  pose proof E as E0.
  unfold subschema_for in *. destruct (find_ref info t g) as [[[r i] g1]|] eqn:EF.
  - assert (EV : s = new_ref r).
    { destruct i; [|congruence]. destruct (insert_new_subschema_for _ _ _ _ _); congruence. }
    assert (find_ref info t h = Some (r, None, h)) as ->.
    2:{ eexists. split; [now rewrite EV|]. repeat split. }
    assert (HH : forall n, r = reference (s_path (g_set g)) n ->
        uget (uid_of info g t) (g_names g1) = Some n ->
        uget (uid_of info g t) (g_names h) = Some n /\ mhas n (g_defs h) = true).
    { intros n Hr Hn.
      pose proof (find_ref_frame _ _ _ _ _ _ EF) as F1.
      split.
      - apply A4. destruct i as [nm|].
        + destruct (insert_new_subschema_for _ _ _ _ _) as [g3|] eqn:EI; [|discriminate].
          injection E as _ <-. apply insert_frame in EI; [|apply HF].
          apply (fr_names _ _ EI). exact Hn.
        + injection E as _ <-. exact Hn.
      - apply A5.
        apply find_ref_name in EF as [(HC & _)|(n' & H1 & H2 & H3 & H4 & _)].
        + rewrite HC in Hr. unfold reference in Hr.
          destruct (definitions_path_stripped (s_path (g_set g))); discriminate.
        + assert (n' = n) by congruence. subst n'. rewrite H4 in E.
          destruct (mhas n (g_defs g)) eqn:EH.
          * injection E as _ <-. cbn. now rewrite H3.
          * unfold insert_new_subschema_for in E.
            destruct (json_schema_internal _ _ _ _) as [[s2 g2]|]; [|discriminate].
            injection E as _ <-. cbn. unfold mhas. now rewrite mget_mset, String.eqb_refl. }
    clear E E0 A4 A5. unfold find_ref in *. rewrite EU, ES, EP, ER.
    destruct (negb (negb _ && _)); [discriminate|].
    destruct (match g_roots g with [] => false | r0 :: _ => uid_eqb r0 _ end).
    + injection EF as <- _ _. reflexivity.
    + destruct (uget (uid_of info g t) (g_names g)) as [nm|] eqn:EN.
      * injection EF as <- <- <-. destruct (HH nm eq_refl EN) as [H1 H2]. now rewrite H1, H2.
      * injection EF as <- <- <-.
        destruct (HH (choose_name (g_used g) (t_name (info t))) eq_refl) as [H1 H2].
        { cbn. now rewrite uid_eqb_refl. }
        now rewrite H1, H2.
  - assert (find_ref info t h = None) as ->.
    { unfold find_ref in *. rewrite EU, ES, EP. destruct (negb (negb _ && _)); [reflexivity|].
      destruct (match g_roots g with [] => false | r0 :: _ => uid_eqb r0 _ end); [discriminate|].
      destruct (uget (uid_of info g t) (g_names g)); discriminate. }
    rewrite EU. eapply internal_replay; eauto. repeat split; auto.
Qed.

Lemma run_prog_replay (js : handler) p :
  (forall t g s g', js t g = Some (s, g') -> grows info g g') -> replays js -> allowed plain p ->
  forall g s g' h, run_prog info js p g = Some (s, g') -> agree g' h ->
  exists h', run_prog info js p h = Some (s, h') /\ same_state h h'.
Proof.
  intros HG HR. assert (HS : forall t g s g', subschema_for info js t g = Some (s, g') -> grows info g g').
  { intros. eapply subschema_grows; eauto. }
  assert (HP : forall p, allowed plain p -> forall g s g', run_prog info js p g = Some (s, g') -> grows info g g').
  { intros q Hq. apply (run_prog_rel info js plain); auto using grows_refl; try discriminate.
    intros a b c. apply grows_trans. }
  induction p as [s0|t k IH|t k IH|t k IH|k IH|k IH|f k IH|b k IH|p IHp k IH];
    intros Ha g s g' h E A; cbn [run_prog allowed] in *; try (destruct Ha; discriminate).
  - injection E as <- <-. eexists. split; [reflexivity|apply same_refl].
  - destruct (subschema_for info js t g) as [[s1 g1]|] eqn:E1; [|discriminate].
    assert (A1 : agree g1 h). { eapply agree_grows; [eapply HP; [apply Ha|exact E]|exact A]. }
    destruct (subschema_replay js t g s1 g1 h HG HR E1 A1) as (h1 & -> & S1).
    destruct (IH s1 (Ha s1) _ _ _ h1 E (agree_same _ _ _ A S1)) as (h2 & E2 & S2).
    exists h2. split; [exact E2|]. eapply same_trans; eauto.
  - destruct (js t g) as [[s1 g1]|] eqn:E1; [|discriminate].
    assert (A1 : agree g1 h). { eapply agree_grows; [eapply HP; [apply Ha|exact E]|exact A]. }
    destruct (HR t g s1 g1 h E1 A1) as (h1 & -> & S1).
    destruct (IH s1 (Ha s1) _ _ _ h1 E (agree_same _ _ _ A S1)) as (h2 & E2 & S2).
    exists h2. split; [exact E2|]. eapply same_trans; eauto.
  - assert (ES : g_set h = g_set g).
    { destruct A as (A1 & _). rewrite A1.
      destruct (HP _ (Ha (g_set g)) _ _ _ E) as [l Hl]. apply (fr_set _ _ (ad_frame _ _ _ _ Hl)). }
    rewrite ES. eapply IH; eauto.
Qed.

Lemma json_schema_replay n : all_allowed plain info -> replays (json_schema info n).
Proof.
  intros HA. assert (HE : all_allowed no_edit info) by (intros t; apply plain_no_edit, HA).
  induction n as [|n IH]; intros t g s g' h E A; cbn [json_schema] in *; [discriminate|].
  destruct (run_prog _ _ _ _) as [[s0 g0]|] eqn:E0; [|discriminate]. injection E as <- <-.
  destruct (run_prog_replay _ _ (json_schema_grows info n HE) IH (HA t) _ _ _ (emit (EvRun t) h) E0)
    as (h' & E1 & S).
  { destruct A as (A1 & A2 & A3 & A4 & A5). repeat split; auto. }
  rewrite E1. eexists. split; [reflexivity|].
  destruct S as (B1 & B2 & B3 & B4 & B5 & B6 & B7). repeat split; auto.
Qed.

Lemma run_replay n p g s g' h :
  all_allowed plain info -> allowed plain p ->
  run info n p g = Some (s, g') -> agree g' h ->
  exists h', run info n p h = Some (s, h') /\ same_state h h'.
Proof.
  intros HA Hp. assert (HE : all_allowed no_edit info) by (intros t; apply plain_no_edit, HA).
  apply run_prog_replay; auto.
  - apply json_schema_grows, HE.
  - apply json_schema_replay, HA.
Qed.

(** ** Root references: without nested roots the root stack is the same throughout a call *)
Definition same_roots (g g' : gen) : Prop :=
  frame g g' /\ exists l, g_log g' = l ++ g_log g
    /\ forall rs t r, In (EvRef rs t r) l -> rs = g_roots g.

Lemma same_roots_refl g : same_roots g g.
Proof. split; [apply frame_refl|]. exists []. split; [reflexivity|]. intros; contradiction. Qed.

Lemma same_roots_trans a b c : same_roots a b -> same_roots b c -> same_roots a c.
Proof.
  intros [FA (l1 & A & HA)] [FB (l2 & B & HB)]. split; [eapply frame_trans; eauto|].
  exists (l2 ++ l1). split; [now rewrite B, A, app_assoc|].
  intros rs t r H. apply in_app_iff in H as [H|H]; [|eauto].
  rewrite <- (fr_roots _ _ FA). eauto.
Qed.

Lemma same_roots_emit e g : (forall rs t r, e = EvRef rs t r -> rs = g_roots g) ->
  same_roots g (emit e g).
Proof.
  intros H. split; [apply frame_emit|]. exists [e]. split; [reflexivity|].
  intros rs t r [->|[]]. eauto.
Qed.

Lemma same_roots_quiet g g' : frame g g' -> g_log g' = g_log g -> same_roots g g'.
Proof.
  intros F E. split; [exact F|]. exists []. split; [exact E|]. intros; contradiction.
Qed.

Lemma internal_same_roots (js : handler) t u g s g' :
  (forall g s g', js t g = Some (s, g') -> same_roots g g') ->
  json_schema_internal js t u g = Some (s, g') -> same_roots g g'.
Proof.
  intros H E. split.
  { eapply internal_frame; [|exact E]. intros x y z Hx. apply (H _ _ _ Hx). }
  unfold json_schema_internal in E. destruct (umem u (g_pending g)); cbn [negb] in E.
  - destruct (js t g) as [[s2 g2]|] eqn:E2; [|discriminate]. injection E as <- <-.
    apply (H _ _ _ E2).
  - destruct (js t (with_pending (u :: g_pending g) g)) as [[s2 g2]|] eqn:E2; [|discriminate].
    injection E as <- <-. apply (H _ _ _ E2).
Qed.

Lemma subschema_same_roots (js : handler) t g s g' :
  (forall g s g', js t g = Some (s, g') -> same_roots g g') ->
  subschema_for info js t g = Some (s, g') -> same_roots g g'.
Proof.
  intros H. unfold subschema_for. destruct (find_ref info t g) as [[[r i] g1]|] eqn:E.
  2: now apply internal_same_roots.
  pose proof (find_ref_frame _ _ _ _ _ _ E) as F.
  assert (EL : g_log g1 = g_log g).
  { apply find_ref_name in E as [(_ & _ & -> & _)|(n & _ & _ & _ & _ & [->|(-> & _)])]; reflexivity. }
  assert (S : same_roots g (emit (EvRef (g_roots g) t r) g1)).
  { eapply same_roots_trans; [apply (same_roots_quiet g g1 F EL)|].
    apply same_roots_emit. intros rs t' r' [= <- <- <-]. symmetry. apply (fr_roots _ _ F). }
  destruct i as [n|].
  - unfold insert_new_subschema_for.
    destruct (json_schema_internal _ _ _ _) as [[s2 g2]|] eqn:E2; [|discriminate].
    intros [= <- <-]. apply internal_same_roots in E2; [|exact H].
    eapply same_roots_trans; [exact S|]. eapply same_roots_trans; [|apply same_roots_emit; discriminate].
    apply same_roots_trans with (b := g2); [|apply same_roots_quiet; [now apply frame_same|reflexivity]].
    eapply same_roots_trans; [|exact E2]. apply same_roots_quiet; [now apply frame_same|reflexivity].
  - intros [= <- <-]. exact S.
Qed.

Lemma json_schema_same_roots n : all_allowed no_root info ->
  forall t g s g', json_schema info n t g = Some (s, g') -> same_roots g g'.
Proof.
  intros HA. induction n as [|n IH]; intros t g s g' H; cbn [json_schema] in H; [discriminate|].
  destruct (run_prog _ _ _ _) as [[s0 g0]|] eqn:H0; [|discriminate]. injection H as <- <-.
  eapply same_roots_trans; [apply (same_roots_emit (EvRun t)); discriminate|].
  eapply same_roots_trans; [|apply (same_roots_emit (EvRet t)); discriminate].
  refine (run_prog_rel info _ no_root same_roots same_roots_refl same_roots_trans IH _ _ _ _ _ (HA t) _ _ _ H0).
  - intros. eapply subschema_same_roots; eauto.
  - discriminate.
  - intros _ d gx. apply same_roots_quiet; [now apply frame_same|reflexivity].
  - intros _ st gx. apply same_roots_quiet; [now apply frame_same|reflexivity].
Qed.

End Run.
