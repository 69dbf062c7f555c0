(** Lemmas about the generator model. *)
From Coq Require Import String Ascii List ZArith Bool Lia Decimal DecimalString DecimalNat FinFun.
From Verif Require Import Json JsonFacts Encoding Pointer SchemaApi Generate GenerateSpec.
Import ListNotations.
Open Scope string_scope.
Open Scope list_scope.

(** ** Keys *)
Lemma uid_eqb_eq a b : uid_eqb a b = true <-> a = b.
Proof.
  destruct a as [a1 a2], b as [b1 b2]. unfold uid_eqb; cbn [fst snd].
  rewrite andb_true_iff, String.eqb_eq. destruct a2, b2; cbn; intuition congruence.
Qed.

Lemma uid_eqb_refl a : uid_eqb a a = true.
Proof. now apply uid_eqb_eq. Qed.

Lemma uid_eqb_neq a b : uid_eqb a b = false <-> a <> b.
Proof. rewrite <- uid_eqb_eq. now destruct (uid_eqb a b). Qed.

Lemma umem_In u l : umem u l = true <-> In u l.
Proof.
  unfold umem. rewrite existsb_exists. split.
  - intros [x [H E]]. apply uid_eqb_eq in E. now subst.
  - intros H. exists u. now rewrite uid_eqb_refl.
Qed.

Lemma smem_In u l : smem u l = true <-> In u l.
Proof.
  unfold smem. rewrite existsb_exists. split.
  - intros [x [H E]]. apply String.eqb_eq in E. now subst.
  - intros H. exists u. now rewrite String.eqb_refl.
Qed.

Lemma filter_pending u l : umem u l = false ->
  filter (fun v => negb (uid_eqb u v)) (u :: l) = l.
Proof.
  intros H. cbn [filter]. rewrite uid_eqb_refl. cbn [negb].
  induction l as [|v l IH]; [reflexivity|].
  cbn [umem existsb] in H. apply orb_false_iff in H as [H1 H2].
  cbn [filter]. rewrite H1. cbn [negb]. f_equal. now apply IH.
Qed.

(** ** Fresh names *)
Lemma append_inj_l p : forall a b, (p ++ a)%string = (p ++ b)%string -> a = b.
Proof. induction p as [|c p IH]; cbn; intros a b H; [exact H|]. injection H. apply IH. Qed.

Lemma numbered_inj base i j : numbered base i = numbered base j -> i = j.
Proof.
  unfold numbered. intros H. apply append_inj_l in H.
  assert (E : Nat.to_uint i = Nat.to_uint j).
  { pose proof (NilEmpty.usu (Nat.to_uint i)) as H1.
    pose proof (NilEmpty.usu (Nat.to_uint j)) as H2. rewrite H in H1. congruence. }
  now apply Unsigned.to_uint_inj.
Qed.

Lemma first_free_spec fuel used base : forall i n,
  first_free fuel used base i = Some n ->
  exists j, i <= j /\ n = numbered base j /\ ~ In n used
       /\ forall l, i <= l < j -> In (numbered base l) used.
Proof.
  induction fuel as [|f IH]; intros i n H; cbn [first_free] in H; [discriminate|].
  destruct (smem (numbered base i) used) eqn:E.
  - apply IH in H as (j & H1 & H2 & H3 & H4). exists j. repeat split; try assumption; try lia.
    intros l Hl. destruct (Nat.eq_dec l i) as [->|N]; [now apply smem_In|]. apply H4; lia.
  - injection H as <-. exists i. repeat split; try lia.
    intros H. apply smem_In in H. congruence.
Qed.

Lemma first_free_none fuel used base : forall i,
  first_free fuel used base i = None ->
  forall l, i <= l < i + fuel -> In (numbered base l) used.
Proof.
  induction fuel as [|f IH]; intros i H l Hl; [lia|].
  cbn [first_free] in H. destruct (smem (numbered base i) used) eqn:E; [|discriminate].
  destruct (Nat.eq_dec l i) as [->|N]; [now apply smem_In|]. apply (IH (S i)); [exact H|lia].
Qed.

Lemma first_free_some used base i : first_free (S (length used)) used base i <> None.
Proof.
  intros H. pose proof (first_free_none _ _ _ _ H) as HN.
  assert (HL : incl (map (numbered base) (seq i (S (length used)))) used).
  { intros x Hx. apply in_map_iff in Hx as (l & <- & Hl). apply in_seq in Hl. apply HN. lia. }
  assert (ND : NoDup (map (numbered base) (seq i (S (length used))))).
  { apply Injective_map_NoDup; [|apply seq_NoDup]. intros a b. apply numbered_inj. }
  pose proof (NoDup_incl_length ND HL) as HH. rewrite map_length, seq_length in HH. lia.
Qed.

Lemma choose_name_fresh used base : ~ In (choose_name used base) used.
Proof.
  unfold choose_name. destruct (smem base used) eqn:E.
  - destruct (first_free (S (length used)) used base 2) eqn:F.
    + apply first_free_spec in F as (j & _ & _ & H & _). exact H.
    + now apply first_free_some in F.
  - intros H. apply smem_In in H. congruence.
Qed.

Lemma choose_name_shape used base :
  choose_name used base = base \/ exists i, 2 <= i /\ choose_name used base = numbered base i.
Proof.
  unfold choose_name. destruct (smem base used) eqn:E; [|now left].
  destruct (first_free (S (length used)) used base 2) eqn:F.
  - apply first_free_spec in F as (j & H & -> & _). right. exists j. auto.
  - now apply first_free_some in F.
Qed.

Section Run.
Context {Ty St : Type}.
Variable info : Ty -> tyinfo Ty St.
Notation gen := (gen Ty St).
Notation prog := (prog Ty St).
Notation handler := (Ty -> gen -> option (json * gen)).

Lemma transform_values_frame d : forall (g : gen) d' g',
  transform_values d g = (d', g') -> exists st, g' = with_tst st g.
Proof.
  induction d as [|[k v] d IH]; intros g d' g' H; cbn [transform_values] in H.
  - injection H as <- <-. exists (g_tst g). now destruct g.
  - destruct (if is_schema v then apply_transforms v g else (v, g)) as [v' g1] eqn:E.
    destruct (transform_values d g1) as [d'' g2] eqn:E2. injection H as <- <-.
    apply IH in E2 as [st ->].
    assert (exists st', g1 = with_tst st' g) as [st' ->].
    { destruct (is_schema v).
      - unfold apply_transforms in E.
        destruct (fold_left _ _ _) as [s' st'']. injection E as <- <-. eauto.
      - injection E as <- <-. exists (g_tst g). now destruct g. }
    exists st. reflexivity.
Qed.

Lemma take_definitions_frame b (g : gen) d g' :
  take_definitions b g = (d, g') -> exists st, g' = with_tst st (with_defs [] g).
Proof.
  unfold take_definitions. destruct b; intros H.
  - eapply transform_values_frame; eauto.
  - injection H as <- <-. exists (g_tst g). now destruct g.
Qed.

Lemma apply_transforms_frame (s : json) (g : gen) s' g' :
  apply_transforms s g = (s', g') -> exists st, g' = with_tst st g.
Proof.
  unfold apply_transforms. destruct (fold_left _ _ _) as [x st]. intros H. injection H as <- <-. eauto.
Qed.

(** ** Frame: what every generator call leaves alone (C13), and names only grow (C11) *)
Record frame (g g' : gen) : Prop := {
  fr_set : g_set g' = g_set g;
  fr_pending : g_pending g' = g_pending g;
  fr_roots : g_roots g' = g_roots g;
  fr_names : forall u n, uget u (g_names g) = Some n -> uget u (g_names g') = Some n;
  fr_log : exists l, g_log g' = l ++ g_log g }.

Lemma frame_refl g : frame g g.
Proof. split; auto. exists []. reflexivity. Qed.

Lemma frame_trans a b c : frame a b -> frame b c -> frame a c.
Proof.
  intros [A1 A2 A3 A4 [l Al]] [B1 B2 B3 B4 [l' Bl]]. split; try congruence; auto.
  exists (l' ++ l). rewrite Bl, Al. now rewrite app_assoc.
Qed.

Lemma frame_same g g' :
  g_set g' = g_set g -> g_pending g' = g_pending g -> g_roots g' = g_roots g ->
  g_names g' = g_names g -> g_log g' = g_log g -> frame g g'.
Proof. intros A B C D E. split; try assumption; [intros; congruence|]. exists []. now rewrite E. Qed.

Lemma frame_emit e g : frame g (emit e g).
Proof. split; auto. exists [e]. reflexivity. Qed.

Lemma internal_frame (js : handler) t u g s g' :
  (forall g s g', js t g = Some (s, g') -> frame g g') ->
  json_schema_internal js t u g = Some (s, g') -> frame g g'.
Proof.
  intros H. unfold json_schema_internal. destruct (umem u (g_pending g)) eqn:E; cbn [negb].
  - destruct (js t g) as [[s2 g2]|] eqn:E2; [|discriminate]. intros [= <- <-]. eauto.
  - destruct (js t (with_pending (u :: g_pending g) g)) as [[s2 g2]|] eqn:E2; [|discriminate].
    intros [= <- <-]. apply H in E2 as [A B C D [l L]]. cbn in *.
    split; cbn; try assumption; [|now exists l].
    rewrite B. change (filter (fun v => negb (uid_eqb u v)) (u :: g_pending g) = g_pending g).
    now apply filter_pending.
Qed.

Lemma find_ref_frame t g r i g' : find_ref info t g = Some (r, i, g') -> frame g g'.
Proof.
  unfold find_ref. destruct (negb _); [discriminate|].
  destruct (match g_roots g with r :: _ => uid_eqb r _ | [] => false end).
  - intros [= <- <- <-]. apply frame_refl.
  - destruct (uget (uid_of info g t) (g_names g)) eqn:E; intros [= <- <- <-]; [apply frame_refl|].
    split; cbn; auto.
    + intros u n Hu. destruct (uid_eqb u _) eqn:E2; [|exact Hu]. apply uid_eqb_eq in E2. congruence.
    + now exists [].
Qed.

Lemma insert_frame (js : handler) t n u g g' :
  (forall g s g', js t g = Some (s, g') -> frame g g') ->
  insert_new_subschema_for js t n u g = Some g' -> frame g g'.
Proof.
  intros H. unfold insert_new_subschema_for.
  destruct (json_schema_internal _ _ _ _) as [[s2 g2]|] eqn:E; [|discriminate].
  intros [= <-]. apply internal_frame in E; [|exact H].
  eapply frame_trans; [|apply frame_emit]. apply frame_trans with (b := g2); [|now apply frame_same].
  eapply frame_trans; [|exact E]. now apply frame_same.
Qed.

Lemma subschema_frame (js : handler) t g s g' :
  (forall g s g', js t g = Some (s, g') -> frame g g') ->
  subschema_for info js t g = Some (s, g') -> frame g g'.
Proof.
  intros H. unfold subschema_for. destruct (find_ref info t g) as [[[r i] g1]|] eqn:E.
  - apply find_ref_frame in E. destruct i as [n|].
    + destruct (insert_new_subschema_for _ _ _ _ _) eqn:E2; [|discriminate]. intros [= <- <-].
      apply insert_frame in E2; [|exact H].
      eapply frame_trans; [exact E|]. eapply frame_trans; [apply frame_emit|]. exact E2.
    + intros [= <- <-]. eapply frame_trans; [exact E|]. apply frame_emit.
  - apply internal_frame; exact H.
Qed.

Lemma root_frame (js : handler) t g s g' :
  (forall g s g', js t g = Some (s, g') -> frame g g') ->
  root_schema_for info js t g = Some (s, g') -> frame g g'.
Proof.
  intros H. unfold root_schema_for.
  destruct (json_schema_internal _ _ _ _) as [[s1 g1]|] eqn:E; [|discriminate].
  destruct (apply_transforms _ _) as [s2 g2] eqn:E2. intros [= <- <-].
  apply internal_frame in E; [|exact H]. apply apply_transforms_frame in E2 as [st ->].
  destruct E as [A B C D L]. cbn in *. split; cbn; auto. now rewrite C.
Qed.

(** ** A relation preserved by the primitive steps is preserved by programs *)
Section Rel.
Variable js : handler.
Variable r : rights.
Variable R : gen -> gen -> Prop.
Hypothesis Rrefl : forall g, R g g.
Hypothesis Rtrans : forall a b c, R a b -> R b c -> R a c.
Hypothesis Rjs : forall t g s g', js t g = Some (s, g') -> R g g'.
Hypothesis Rsub : forall t g s g', subschema_for info js t g = Some (s, g') -> R g g'.
Hypothesis Rroot : may_root r = true -> forall t g s g', root_schema_for info js t g = Some (s, g') -> R g g'.
Hypothesis Rset : may_set r = true -> forall d g, R g (with_defs d g).
Hypothesis Rtake : may_take r = true -> forall st g, R g (with_tst st (with_defs [] g)).

Lemma run_prog_rel p : allowed r p -> forall g s g', run_prog info js p g = Some (s, g') -> R g g'.
Proof.
  induction p as [s0|t k IH|t k IH|t k IH|k IH|k IH|f k IH|b k IH|p IHp k IH];
    intros Ha g s g' H; cbn [run_prog] in H; cbn [allowed] in Ha.
  - injection H as <- <-. apply Rrefl.
  - destruct (subschema_for info js t g) as [[s1 g1]|] eqn:E; [|discriminate].
    eapply Rtrans; [eapply Rsub, E|]. eapply IH; eauto.
  - destruct (js t g) as [[s1 g1]|] eqn:E; [|discriminate].
    eapply Rtrans; [eapply Rjs, E|]. eapply IH; eauto.
  - destruct (root_schema_for info js t g) as [[s1 g1]|] eqn:E; [|discriminate].
    destruct Ha as [Hr Ha]. eapply Rtrans; [eapply (Rroot Hr), E|]. eapply IH; eauto.
  - eapply IH; eauto.
  - eapply IH; [apply Ha|eauto].
  - destruct Ha as [Hs Ha]. eapply Rtrans; [apply (Rset Hs)|]. eapply IH; eauto.
  - destruct Ha as [Hs Ha]. destruct (take_definitions b g) as [d g1] eqn:E.
    apply take_definitions_frame in E as [st ->].
    eapply Rtrans; [apply (Rtake Hs)|]. eapply IH; eauto.
  - destruct Ha as (Hs & Hp & Ha). destruct (run_prog info js p (clone_gen g)) as [[s1 g1]|]; [|discriminate].
    eapply IH; eauto.
Qed.
End Rel.

Lemma allowed_any (p : prog) : allowed any_rights p.
Proof. induction p; cbn; auto. Qed.

Lemma json_schema_frame n : forall t g s g', json_schema info n t g = Some (s, g') -> frame g g'.
Proof.
  induction n as [|n IH]; intros t g s g' H; cbn [json_schema] in H; [discriminate|].
  destruct (run_prog _ _ _ _) as [[s0 g0]|] eqn:H0; [|discriminate]. injection H as <- <-.
  eapply frame_trans; [apply frame_emit|]. eapply frame_trans; [|apply frame_emit].
  rename H0 into H. refine (run_prog_rel _ any_rights frame frame_refl frame_trans IH _ _ _ _ _ (allowed_any _) _ _ _ H).
  - intros. eapply subschema_frame; eauto.
  - intros. eapply root_frame; eauto.
  - intros _ d gx. now apply frame_same.
  - intros _ st gx. now apply frame_same.
Qed.

Lemma run_frame n p g s g' : run info n p g = Some (s, g') -> frame g g'.
Proof.
  unfold run. refine (run_prog_rel _ any_rights frame frame_refl frame_trans _ _ _ _ _ p (allowed_any _) g s g').
  - apply json_schema_frame.
  - intros. eapply subschema_frame; eauto using json_schema_frame.
  - intros. eapply root_frame; eauto using json_schema_frame.
  - intros _ d gx. now apply frame_same.
  - intros _ st gx. now apply frame_same.
Qed.

(** ** The invariant *)

(** [P] lists the names whose definition is still being generated. *)
Record inv (P : list string) (g : gen) : Prop := {
  inv_used : forall u n, uget u (g_names g) = Some n -> In n (g_used g);
  inv_inj : forall u v n, uget u (g_names g) = Some n -> uget v (g_names g) = Some n -> u = v;
  inv_defs : forall k d, mget k (g_defs g) = Some d ->
    (exists t, uget (uid_of info g t) (g_names g) = Some k)
    /\ ((exists t, In (EvDef t k d) (g_log g)) \/ In k P);
  inv_prod : forall t k d, In (EvDef t k d) (g_log g) ->
    produced info t d g /\ uget (uid_of info g t) (g_names g) = Some k;
  inv_ref : forall rs t r, In (EvRef rs t r) (g_log g) ->
    r = "#" \/ exists n, r = reference (s_path (g_set g)) n
                 /\ uget (uid_of info g t) (g_names g) = Some n;
  inv_used_ref : forall n, In n (g_used g) ->
    exists rs t, In (EvRef rs t (reference (s_path (g_set g)) n)) (g_log g);
  inv_sorted : sorted_keys (map fst (g_defs g)) = true;
  inv_base : forall u n, uget u (g_names g) = Some n -> exists t, u = uid_of info g t
    /\ (n = t_name (info t) \/ exists i, 2 <= i /\ n = numbered (t_name (info t)) i) }.

Lemma uid_of_set (g g' : gen) t : g_set g' = g_set g -> uid_of info g' t = uid_of info g t.
Proof. unfold uid_of. now intros ->. Qed.

Lemma produced_frame t d g g' : frame g g' -> produced info t d g -> produced info t d g'.
Proof.
  intros F (m & g1 & g2 & A & B & C). exists m, g1, g2. repeat split; auto.
  - rewrite (fr_set _ _ F). exact B.
  - intros. apply (fr_names _ _ F). auto.
Qed.

Lemma inv_new s st : inv [] (new_gen s st).
Proof. split; cbn; try discriminate; try reflexivity; intros; contradiction. Qed.

Lemma inv_emit_other P e g : (forall t k d, e <> EvDef t k d) -> (forall rs t r, e <> EvRef rs t r) ->
  inv P g -> inv P (emit e g).
Proof.
  intros He Hf [A B C D Q W S N]. split; cbn; auto.
  - intros k d H. destruct (C k d H) as (H1 & [[t H2]|H2]); split; eauto.
  - intros t k d [H|H]; [now apply He in H|]. apply D in H. exact H.
  - intros rs t r [H|H]; [now apply Hf in H|]. apply Q in H. exact H.
  - intros n H. destruct (W n H) as (rs & t & H1). eauto.
Qed.

(** Changes of fields the invariant does not read. *)
Lemma inv_same P g g' :
  g_set g' = g_set g -> g_names g' = g_names g -> g_used g' = g_used g -> g_defs g' = g_defs g ->
  g_log g' = g_log g -> inv P g -> inv P g'.
Proof.
  intros E1 E2 E3 E4 E5 [A B C D Q W S N]. split; rewrite ?E2, ?E3, ?E4, ?E5; auto.
  - intros k d H. destruct (C k d H) as ([t H1] & H2). split; [|exact H2].
    exists t. now rewrite (uid_of_set g g').
  - intros t k d H. destruct (D t k d H) as [H1 H2]. split; [|now rewrite (uid_of_set g g')].
    destruct H1 as (m & g1 & g2 & F1 & F2 & F3). exists m, g1, g2. rewrite E1, E2. auto.
  - intros rs t r H. destruct (Q rs t r H) as [H1|(n & H1 & H2)]; [now left|]. right. exists n.
    now rewrite E1, (uid_of_set g g').
  - intros n H. rewrite E1. auto.
  - intros u n H. destruct (N u n H) as (t & H1 & H2). exists t. now rewrite (uid_of_set g g').
Qed.

Lemma inv_no_defs P g : inv P g -> inv P (with_defs [] g).
Proof. intros [A B C D Q W S N]. split; cbn; auto; discriminate. Qed.

Definition keeps (g g' : gen) : Prop := frame g g' /\ forall P, inv P g -> inv P g'.

Lemma keeps_refl g : keeps g g.
Proof. split; [apply frame_refl|auto]. Qed.

Lemma keeps_trans a b c : keeps a b -> keeps b c -> keeps a c.
Proof. intros [A1 A2] [B1 B2]. split; [eapply frame_trans; eauto|auto]. Qed.

Lemma internal_keeps (js : handler) t u g s g' :
  (forall g s g', js t g = Some (s, g') -> keeps g g') ->
  json_schema_internal js t u g = Some (s, g') -> keeps g g'.
Proof.
  intros H E. split; [eapply internal_frame; [|exact E]; intros; eapply H; eauto|].
  intros P I. unfold json_schema_internal in E. destruct (umem u (g_pending g)); cbn [negb] in E.
  - destruct (js t g) as [[s2 g2]|] eqn:E2; [|discriminate]. injection E as <- <-.
    now apply H in E2 as [_ E2]; apply E2.
  - destruct (js t (with_pending (u :: g_pending g) g)) as [[s2 g2]|] eqn:E2; [|discriminate].
    injection E as <- <-. apply H in E2 as [_ E2].
    eapply inv_same; [..|apply (E2 P)]; try reflexivity. eapply inv_same; [..|exact I]; reflexivity.
Qed.

Lemma internal_produced n t u g s g' :
  json_schema_internal (json_schema info n) t u g = Some (s, g') -> produced info t s g'.
Proof.
  intros E. unfold json_schema_internal in E. destruct (umem u (g_pending g)); cbn [negb] in E.
  - destruct (json_schema info n t g) as [[s2 g2]|] eqn:E2; [|discriminate]. injection E as <- <-.
    exists n, g, g2. repeat split; auto. symmetry. apply (fr_set _ _ (json_schema_frame _ _ _ _ _ E2)).
  - destruct (json_schema info n t _) as [[s2 g2]|] eqn:E2; [|discriminate].
    injection E as <- <-. exists n, (with_pending (u :: g_pending g) g), g2. repeat split; auto.
    symmetry. apply (fr_set _ _ (json_schema_frame _ _ _ _ _ E2)).
Qed.

Lemma find_ref_name t g r i g1 :
  find_ref info t g = Some (r, i, g1) ->
  (r = "#" /\ i = None /\ g1 = g /\ hd_error (g_roots g) = Some (uid_of info g t))
  \/ exists n, r = reference (s_path (g_set g)) n
        /\ uget (uid_of info g t) (g_names g1) = Some n
        /\ g_defs g1 = g_defs g
        /\ i = (if mhas n (g_defs g) then None else Some n)
        /\ (g1 = g \/ g1 = with_name (uid_of info g t) n g
                      /\ uget (uid_of info g t) (g_names g) = None
                      /\ n = choose_name (g_used g) (t_name (info t))).
Proof.
  unfold find_ref. destruct (negb _); [discriminate|].
  destruct (g_roots g) as [|r0 rs] eqn:ER.
  2: destruct (uid_eqb r0 (uid_of info g t)) eqn:E0.
  2: { intros [= <- <- <-]. left. apply uid_eqb_eq in E0. subst. repeat split. }
  all: destruct (uget (uid_of info g t) (g_names g)) eqn:E; intros [= <- <- <-]; right;
    eexists; (split; [reflexivity|]); (split; [try exact E; cbn; now rewrite uid_eqb_refl|]);
    repeat split; auto.
Qed.

Lemma reference_not_root path n : reference path n <> "#".
Proof. unfold reference. destruct (definitions_path_stripped path); discriminate. Qed.

Lemma find_ref_keeps t g r i g1 : find_ref info t g = Some (r, i, g1) ->
  keeps g (emit (EvRef (g_roots g) t r) g1).
Proof.
  intros E. pose proof (find_ref_frame _ _ _ _ _ E) as F.
  assert (F' : frame g (emit (EvRef (g_roots g) t r) g1)).
  { eapply frame_trans; [exact F|apply frame_emit]. }
  split; [exact F'|]. intros P I. destruct I as [A B C D Q W S N].
  apply find_ref_name in E as [(-> & _ & -> & _)|(n & -> & HN & _ & _ & [->|(-> & EN & HF)])].
  - split; cbn; auto.
    + intros k d H. destruct (C k d H) as (H1 & [[t' H2]|H2]); split; eauto.
    + intros t' k d [[=]|H]. apply D in H. exact H.
    + intros rs t' r [[= <- <- <-]|H]; [now left|]. apply Q in H. exact H.
    + intros n H. destruct (W n H) as (rs & t' & H1). eauto.
  - split; cbn; auto.
    + intros k d H. destruct (C k d H) as (H1 & [[t' H2]|H2]); split; eauto.
    + intros t' k d [[=]|H]. apply D in H. exact H.
    + intros rs t' r [[= <- <- <-]|H]; [right; exists n; auto|]. apply Q in H. exact H.
    + intros n' H. destruct (W n' H) as (rs & t' & H1). eauto.
  - split; cbn.
    + intros u n0. destruct (uid_eqb u _); [intros [= <-]; now left|]. intros H. right. eauto.
    + intros u v n0.
      destruct (uid_eqb u _) eqn:E1, (uid_eqb v _) eqn:E2; intros H1 H2.
      * apply uid_eqb_eq in E1, E2. congruence.
      * injection H1 as <-. subst n. apply A in H2. now apply choose_name_fresh in H2.
      * injection H2 as <-. subst n. apply A in H1. now apply choose_name_fresh in H1.
      * eauto.
    + intros k d H. destruct (C k d H) as ([t' H1] & H2). split.
      * exists t'. apply (fr_names _ _ F) in H1. exact H1.
      * destruct H2 as [[t2 H2]|H2]; eauto.
    + intros t' k d [[=]|H]. destruct (D t' k d H) as [H1 H2]. split.
      * eapply produced_frame; [exact F'|exact H1].
      * apply (fr_names _ _ F) in H2. exact H2.
    + intros rs t' r [[= <- <- <-]|H].
      * right. exists n. split; [reflexivity|]. exact HN.
      * destruct (Q rs t' r H) as [H1|(m & H1 & H2)]; [now left|]. right. exists m. split; [exact H1|].
        apply (fr_names _ _ F) in H2. exact H2.
    + intros m [<-|Hm]; [eauto|]. destruct (W m Hm) as (rs & t' & H1). eauto.
    + exact S.
    + intros u m. destruct (uid_eqb u _) eqn:E1.
      * apply uid_eqb_eq in E1. subst u. intros [= <-]. exists t. split; [reflexivity|].
        subst n. apply choose_name_shape.
      * apply N.
Qed.

Lemma insert_keeps n t name g g' :
  (forall g s g', json_schema info n t g = Some (s, g') -> keeps g g') ->
  uget (uid_of info g t) (g_names g) = Some name ->
  insert_new_subschema_for (json_schema info n) t name (uid_of info g t) g = Some g' -> keeps g g'.
Proof.
  intros H HN E. split; [eapply insert_frame; [|exact E]; intros; eapply H; eauto|].
  intros P I. unfold insert_new_subschema_for in E.
  destruct (json_schema_internal _ _ _ _) as [[s2 g2]|] eqn:E1; [|discriminate]. injection E as <-.
  pose proof (internal_produced _ _ _ _ _ _ E1) as HP.
  apply internal_keeps in E1 as [F1 K1]; [|exact H].
  assert (HN2 : uget (uid_of info g2 t) (g_names g2) = Some name).
  { rewrite (uid_of_set g g2) by apply (fr_set _ _ F1). now apply (fr_names _ _ F1). }
  assert (I1 : inv (name :: P) (with_defs (mset name (JBool false) (g_defs g)) g)).
  { destruct I as [A B C D Q W S N]. split; cbn; auto.
    - intros k d. rewrite mget_mset. destruct (String.eqb k name) eqn:Ek.
      + apply String.eqb_eq in Ek. subst k. intros _. split; [|now right; left]. exists t. exact HN.
      + intros Hk. destruct (C k d Hk) as [H1 [H2|H2]]; split; auto; right; now right.
    - now apply sorted_mset. }
  apply K1 in I1. clear K1. destruct I1 as [A B C D Q W S N]. split; cbn; auto.
  - intros k d. rewrite mget_mset. destruct (String.eqb k name) eqn:Ek.
    + apply String.eqb_eq in Ek. subst k. intros [= <-]. split; [exists t; exact HN2|].
      left. exists t. now left.
    + intros Hk. destruct (C k d Hk) as [H1 [[t' H2]|[<-|H2]]]; split; auto.
      * left. exists t'. now right.
      * now rewrite String.eqb_refl in Ek.
  - intros t' k d [He|Hd].
    + injection He as <- <- <-. split; [|exact HN2]. exact HP.
    + destruct (D t' k d Hd) as [H1 H2]. split; [|exact H2]. exact H1.
  - intros rs t' r [[=]|Hr]. apply (Q rs t' r Hr).
  - intros m Hm. destruct (W m Hm) as (rs & t' & H1). eauto.
  - now apply sorted_mset.
Qed.

Lemma subschema_keeps n t g s g' :
  (forall g s g', json_schema info n t g = Some (s, g') -> keeps g g') ->
  subschema_for info (json_schema info n) t g = Some (s, g') -> keeps g g'.
Proof.
  intros H. unfold subschema_for. destruct (find_ref info t g) as [[[r i] g1]|] eqn:E.
  - pose proof (find_ref_keeps _ _ _ _ _ E) as K.
    destruct i as [name|].
    + destruct (insert_new_subschema_for _ _ _ _ _) eqn:E2; [|discriminate]. intros [= <- <-].
      eapply keeps_trans; [exact K|].
      pose proof (find_ref_frame _ _ _ _ _ E) as F.
      assert (EU : uid_of info g t = uid_of info (emit (EvRef (g_roots g) t r) g1) t).
      { symmetry. apply uid_of_set. cbn. apply (fr_set _ _ F). }
      rewrite EU in E2. eapply insert_keeps; [exact H| |exact E2]. rewrite <- EU. cbn.
      apply find_ref_name in E as [(_ & HH & _)|(n0 & _ & HN & _ & HI & _)]; [discriminate|].
      destruct (mhas n0 (g_defs g)); [discriminate|]. congruence.
    + intros [= <- <-]. exact K.
  - apply internal_keeps; exact H.
Qed.

Lemma root_keeps n t g s g' :
  (forall g s g', json_schema info n t g = Some (s, g') -> keeps g g') ->
  root_schema_for info (json_schema info n) t g = Some (s, g') -> keeps g g'.
Proof.
  intros H E. split; [eapply root_frame; [|exact E]; intros; eapply H; eauto|].
  intros P I. unfold root_schema_for in E.
  destruct (json_schema_internal _ _ _ _) as [[s1 g1]|] eqn:E1; [|discriminate].
  destruct (apply_transforms _ _) as [s2 g2] eqn:E2. injection E as <- <-.
  apply internal_keeps in E1 as [_ K]; [|exact H]. apply apply_transforms_frame in E2 as [st ->].
  eapply inv_same; [..|apply (K P)]; try reflexivity. eapply inv_same; [..|exact I]; reflexivity.
Qed.

Hint Resolve keeps_refl keeps_trans : core.

Lemma keeps_take st g : keeps g (with_tst st (with_defs [] g)).
Proof.
  split; [now apply frame_same|]. intros P I.
  eapply inv_same; [..|apply inv_no_defs, I]; reflexivity.
Qed.

Lemma keeps_emit e g : (forall t k d, e <> EvDef t k d) -> (forall rs t r, e <> EvRef rs t r) ->
  keeps g (emit e g).
Proof. intros H H'. split; [apply frame_emit|]. intros P. now apply inv_emit_other. Qed.

Lemma json_schema_keeps n : all_allowed no_set info ->
  forall t g s g', json_schema info n t g = Some (s, g') -> keeps g g'.
Proof.
  intros HA. induction n as [|n IH]; intros t g s g' H; cbn [json_schema] in H; [discriminate|].
  destruct (run_prog _ _ _ _) as [[s0 g0]|] eqn:H0; [|discriminate]. injection H as <- <-.
  eapply keeps_trans; [apply (keeps_emit (EvRun t)); discriminate|].
  eapply keeps_trans; [|apply (keeps_emit (EvRet t)); discriminate].
  rename H0 into H. refine (run_prog_rel _ no_set keeps keeps_refl keeps_trans IH _ _ _ _ _ (HA t) _ _ _ H).
  - intros. eapply subschema_keeps; eauto.
  - intros. eapply root_keeps; eauto.
  - discriminate.
  - intros _. exact keeps_take.
Qed.

Lemma run_keeps n p : all_allowed no_set info -> allowed no_set p ->
  forall g s g', run info n p g = Some (s, g') -> keeps g g'.
Proof.
  intros HA Hp g s g'. pose proof (json_schema_keeps n HA) as IH.
  refine (run_prog_rel _ no_set keeps keeps_refl keeps_trans IH _ _ _ _ p Hp g s g').
  - intros. eapply subschema_keeps; eauto.
  - intros. eapply root_keeps; eauto.
  - discriminate.
  - intros _. exact keeps_take.
Qed.

(** ** What a call adds, for programs that do not edit the definitions *)
Record adds (g g' : gen) (l : list (event Ty)) : Prop := {
  ad_frame : frame g g';
  ad_log : g_log g' = l ++ g_log g;
  ad_defs : forall k d, mget k (g_defs g) = Some d -> mget k (g_defs g') = Some d;
  ad_ref : forall rs t r, In (EvRef rs t r) l ->
    t_inline (info t) = false
    /\ ((r = "#" /\ hd_error rs = Some (uid_of info g t))
        \/ exists n, r = reference (s_path (g_set g)) n
             /\ uget (uid_of info g t) (g_names g') = Some n /\ mhas n (g_defs g') = true);
  ad_new : forall k d, mget k (g_defs g) = None -> mget k (g_defs g') = Some d ->
    exists t rs, In (EvDef t k d) l /\ In (EvRef rs t (reference (s_path (g_set g)) k)) l;
  ad_def : forall t k d, In (EvDef t k d) l ->
    mget k (g_defs g) = None /\ mget k (g_defs g') = Some d }.

Definition grows (g g' : gen) : Prop := exists l, adds g g' l.

Lemma grows_refl g : grows g g.
Proof. exists []. split; auto using frame_refl; try (intros; contradiction). intros; congruence. Qed.

Lemma mhas_mget {A} k (m : list (string * A)) : mhas k m = true <-> exists d, mget k m = Some d.
Proof. unfold mhas. destruct (mget k m); split; eauto; try discriminate. now intros [d H]. Qed.

Lemma mhas_mget_none {A} k (m : list (string * A)) : mhas k m = false <-> mget k m = None.
Proof. unfold mhas. destruct (mget k m); split; congruence. Qed.

Lemma adds_trans a b c l1 l2 : adds a b l1 -> adds b c l2 -> adds a c (l2 ++ l1).
Proof.
  intros [A1 A2 A3 A4 A5 A6] [B1 B2 B3 B4 B5 B6].
  pose proof (fr_set _ _ A1) as ES. split.
  - eapply frame_trans; eauto.
  - rewrite B2, A2. now rewrite app_assoc.
  - auto.
  - intros rs t r H. apply in_app_iff in H as [H|H].
    + destruct (B4 rs t r H) as [H0 H1]. split; [exact H0|].
      rewrite (uid_of_set a b) in H1 by exact ES. rewrite ES in H1. exact H1.
    + destruct (A4 rs t r H) as [H0 [H1|(n & H1 & H2 & H3)]]; split; auto.
      right. exists n. repeat split; auto.
      * now apply (fr_names _ _ B1).
      * apply mhas_mget in H3 as [d H3]. apply mhas_mget. eauto.
  - intros k d H1 H2. destruct (mget k (g_defs b)) as [d'|] eqn:E.
    + pose proof (B3 k d' E) as H3. assert (d' = d) by congruence. subst d'.
      destruct (A5 k d H1 E) as (t & rs & H4 & H5). exists t, rs.
      split; apply in_app_iff; now right.
    + destruct (B5 k d E H2) as (t & rs & H4 & H5). exists t, rs. rewrite ES in H5.
      split; apply in_app_iff; now left.
  - intros t k d H. apply in_app_iff in H as [H|H].
    + destruct (B6 t k d H) as [H1 H2]. split; [|exact H2].
      destruct (mget k (g_defs a)) as [d'|] eqn:E; [|reflexivity]. apply A3 in E. congruence.
    + destruct (A6 t k d H) as [H1 H2]. split; [exact H1|]. now apply B3.
Qed.

Lemma grows_trans a b c : grows a b -> grows b c -> grows a c.
Proof. intros [l1 A] [l2 B]. eexists. eapply adds_trans; eauto. Qed.

Lemma adds_same g g' h h' l :
  g_set h = g_set g -> g_names h' = g_names g' -> g_defs h = g_defs g -> g_defs h' = g_defs g' ->
  g_log h = g_log g -> g_log h' = g_log g' -> frame h h' -> adds g g' l -> adds h h' l.
Proof.
  intros E1 E2 E3 E4 E5 E6 F [A1 A2 A3 A4 A5 A6]. split; try assumption;
    rewrite ?E1, ?E2, ?E3, ?E4, ?E5, ?E6; try assumption.
  intros rs t r H. rewrite (uid_of_set g h) by exact E1. auto.
Qed.

Lemma internal_adds (js : handler) t u g s g' l :
  (forall g s g', js t g = Some (s, g') -> grows g g') ->
  json_schema_internal js t u g = Some (s, g') -> g_log g' = l ++ g_log g -> adds g g' l.
Proof.
  intros H E EL.
  assert (F : frame g g').
  { eapply internal_frame; [|exact E]. intros x y z Hx. destruct (H _ _ _ Hx) as [l0 H0]. apply H0. }
  unfold json_schema_internal in E. destruct (umem u (g_pending g)); cbn [negb] in E.
  - destruct (js t g) as [[s2 g2]|] eqn:E2; [|discriminate]. injection E as <- <-.
    apply H in E2 as [l0 E2]. assert (l0 = l) as <-; [|exact E2].
    pose proof (ad_log _ _ _ E2) as H0. rewrite EL in H0. now apply app_inv_tail in H0.
  - destruct (js t (with_pending (u :: g_pending g) g)) as [[s2 g2]|] eqn:E2; [|discriminate].
    injection E as <- <-. apply H in E2 as [l0 E2]. assert (l0 = l) as <-.
    { pose proof (ad_log _ _ _ E2) as H0. cbn in H0, EL. rewrite EL in H0. now apply app_inv_tail in H0. }
    eapply adds_same; [..|exact E2]; try reflexivity. exact F.
Qed.

Lemma internal_grows (js : handler) t u g s g' :
  (forall g s g', js t g = Some (s, g') -> grows g g') ->
  json_schema_internal js t u g = Some (s, g') -> grows g g'.
Proof.
  intros H E.
  assert (F : frame g g').
  { eapply internal_frame; [|exact E]. intros x y z Hx. destruct (H _ _ _ Hx) as [l0 H0]. apply H0. }
  destruct (fr_log _ _ F) as [l L]. exists l. eapply internal_adds; eauto.
Qed.

Lemma find_ref_inline t g x : find_ref info t g = Some x -> t_inline (info t) = false.
Proof.
  unfold find_ref. destruct (t_inline (info t)); [|reflexivity]. cbn. discriminate.
Qed.

Lemma subschema_grows (js : handler) t g s g' :
  (forall g s g', js t g = Some (s, g') -> grows g g') ->
  subschema_for info js t g = Some (s, g') -> grows g g'.
Proof.
  intros H. unfold subschema_for. destruct (find_ref info t g) as [[[r i] g1]|] eqn:E.
  2: now apply internal_grows.
  pose proof (find_ref_inline _ _ _ E) as EI.
  pose proof (find_ref_frame _ _ _ _ _ E) as F.
  assert (EL : g_log g1 = g_log g).
  { apply find_ref_name in E as [(_ & _ & -> & _)|(n & _ & _ & _ & _ & [->|(-> & _)])]; reflexivity. }
  set (e := EvRef (g_roots g) t r) in *.
  assert (F1 : frame g (emit e g1)). { eapply frame_trans; [exact F|apply frame_emit]. }
  apply find_ref_name in E as [(-> & -> & -> & HR)|(n & -> & HN & HD & -> & _)].
  - intros [= <- <-]. exists [e]. split; cbn; auto.
    + intros rs t' r' [[= <- <- <-]|[]]. auto.
    + intros k d H1 H2. congruence.
    + intros t' k d [[=]|[]].
  - destruct (mhas n (g_defs g)) eqn:EH.
    + intros [= <- <-]. exists [e]. split; cbn; rewrite ?HD, ?EL; auto.
      * intros rs t' r' [[= <- <- <-]|[]]. split; [exact EI|]. right. exists n. auto.
      * intros k d H1 H2. congruence.
      * intros t' k d [[=]|[]].
    + unfold insert_new_subschema_for.
      destruct (json_schema_internal _ _ _ _) as [[s2 g2]|] eqn:E2; [|discriminate].
      intros [= <- <-]. apply internal_grows in E2 as [l A]; [|exact H].
      apply mhas_mget_none in EH.
      destruct A as [A1 A2 A3 A4 A5 A6]. cbn in A1, A2, A3, A4, A5, A6.
      rewrite HD in A3, A5, A6. rewrite EL in A2.
      pose proof (fr_set _ _ F) as ES. rewrite ES in A4, A5.
      assert (EU : forall x, uid_of info (with_defs (mset n (JBool false) (g_defs g1)) (emit e g1)) x
                   = uid_of info g x). { intros x. apply uid_of_set. cbn. exact ES. }
      exists (EvDef t n s2 :: l ++ [e]). split; cbn.
      * eapply frame_trans; [exact F1|]. eapply frame_trans; [|apply frame_emit].
        apply frame_trans with (b := g2); [|now apply frame_same].
        eapply frame_trans; [|exact A1]. now apply frame_same.
      * rewrite A2. now rewrite <- app_assoc.
      * intros k d Hk. rewrite mget_mset. destruct (String.eqb k n) eqn:Ek.
        -- apply String.eqb_eq in Ek. congruence.
        -- apply A3. now rewrite mget_mset, Ek.
      * intros rs t' r' [[=]|Hl]. apply in_app_iff in Hl as [Hl|[[= <- <- <-]|[]]].
        -- destruct (A4 _ _ _ Hl) as [H0 H1]. split; [exact H0|]. rewrite EU in H1.
           destruct H1 as [H1|(m & H1 & H2 & H3)]; [now left|]. right. exists m.
           repeat split; auto. unfold mhas. rewrite mget_mset.
           destruct (String.eqb m n); [reflexivity|exact H3].
        -- split; [exact EI|]. right. exists n. repeat split.
           ++ apply (fr_names _ _ A1). cbn. exact HN.
           ++ unfold mhas. now rewrite mget_mset, String.eqb_refl.
      * intros k d H1 H2. rewrite mget_mset in H2. destruct (String.eqb k n) eqn:Ek.
        -- apply String.eqb_eq in Ek. subst k. injection H2 as <-. exists t, (g_roots g).
           split; [now left|]. right. apply in_app_iff. right. now left.
        -- destruct (A5 k d) as (t' & rs & H3 & H4); [now rewrite mget_mset, Ek|exact H2|].
           exists t', rs. split; right; apply in_app_iff; now left.
      * intros t' k d [[= <- <- <-]|Hl].
        -- split; [exact EH|]. now rewrite mget_mset, String.eqb_refl.
        -- apply in_app_iff in Hl as [Hl|[[=]|[]]]. destruct (A6 _ _ _ Hl) as [H1 H2].
           rewrite mget_mset in H1. rewrite mget_mset. destruct (String.eqb k n); [discriminate|].
           auto.
Qed.

Lemma root_grows (js : handler) t g s g' :
  (forall g s g', js t g = Some (s, g') -> grows g g') ->
  root_schema_for info js t g = Some (s, g') -> grows g g'.
Proof.
  intros H E.
  assert (F : frame g g').
  { eapply root_frame; [|exact E]. intros x y z Hx. destruct (H _ _ _ Hx) as [l0 H0]. apply H0. }
  unfold root_schema_for in E.
  destruct (json_schema_internal _ _ _ _) as [[s1 g1]|] eqn:E1; [|discriminate].
  destruct (apply_transforms _ _) as [s2 g2] eqn:E2. injection E as <- <-.
  apply internal_grows in E1 as [l A]; [|exact H]. apply apply_transforms_frame in E2 as [st ->].
  exists l. eapply adds_same; [..|exact A]; try reflexivity. exact F.
Qed.

Lemma grows_emit e g : (forall t k d, e <> EvDef t k d) -> (forall rs t r, e <> EvRef rs t r) ->
  grows g (emit e g).
Proof.
  intros H1 H2. exists [e]. split; cbn; auto using frame_emit.
  - intros rs t r [H|[]]. now apply H2 in H.
  - intros; congruence.
  - intros t k d [H|[]]. now apply H1 in H.
Qed.

Lemma json_schema_grows n : all_allowed no_edit info ->
  forall t g s g', json_schema info n t g = Some (s, g') -> grows g g'.
Proof.
  intros HA. induction n as [|n IH]; intros t g s g' H; cbn [json_schema] in H; [discriminate|].
  destruct (run_prog _ _ _ _) as [[s0 g0]|] eqn:H0; [|discriminate]. injection H as <- <-.
  eapply grows_trans; [apply (grows_emit (EvRun t)); discriminate|].
  eapply grows_trans; [|apply (grows_emit (EvRet t)); discriminate].
  refine (run_prog_rel _ no_edit grows grows_refl grows_trans IH _ _ _ _ _ (HA t) _ _ _ H0).
  - intros. eapply subschema_grows; eauto.
  - intros. eapply root_grows; eauto.
  - discriminate.
  - discriminate.
Qed.

Lemma run_grows n p : all_allowed no_edit info -> allowed no_edit p ->
  forall g s g', run info n p g = Some (s, g') -> grows g g'.
Proof.
  intros HA Hp g s g'. pose proof (json_schema_grows n HA) as IH.
  refine (run_prog_rel _ no_edit grows grows_refl grows_trans IH _ _ _ _ p Hp g s g').
  - intros. eapply subschema_grows; eauto.
  - intros. eapply root_grows; eauto.
  - discriminate.
  - discriminate.
Qed.

End Run.
