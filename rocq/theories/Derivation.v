(** What a root schema and its definitions are made of, without the generator: each is the result
    of an implementation run in which [subschema_for] answered with a reference or with the schema
    the implementation of that type returned. *)
From Coq Require Import String Ascii List ZArith Bool Lia.
From Verif Require Import Json JsonFacts Encoding EncodingProofs Pointer PointerProofs SchemaApi
  Generate GenerateSpec GenerateProofs GenerateDoc.
Import ListNotations.
Open Scope string_scope.
Open Scope list_scope.

Section Derive.
Context {Ty St : Type}.
Variable info : Ty -> tyinfo Ty St.
Notation gen := (gen Ty St).
Notation prog := (prog Ty St).

(** The implementation asks, with [subschema_for] or by a direct call, for types in [R] only, and
    uses no other method of the generator than these, [settings] and [definitions]. *)
Fixpoint within (R : Ty -> Prop) (p : prog) : Prop :=
  match p with
  | Ret _ => True
  | Sub t k | Call t k => R t /\ forall s, within R (k s)
  | ReadSettings k => forall s, within R (k s)
  | ReadDefs k => forall d, within R (k d)
  | _ => False
  end.

Variable R : Ty -> Prop.

Section Rel.
Variable S : settings St.
Variable ans : Ty -> string -> Prop.   (* references [subschema_for] may answer with *)
Variable seen : map_t -> Prop.         (* what [definitions] may return *)

Inductive derives : Ty -> json -> Prop :=
| Derives t s : runs (t_body (info t)) s -> derives t s
with runs : prog -> json -> Prop :=
| RunRet s : runs (Ret s) s
| RunRef t k r s : R t -> t_inline (info t) = false -> ans t r -> runs (k (new_ref r)) s -> runs (Sub t k) s
| RunInline t k d s : R t -> derives t d -> runs (k d) s -> runs (Sub t k) s
| RunCall t k d s : R t -> derives t d -> runs (k d) s -> runs (Call t k) s
| RunSettings k s : runs (k S) s -> runs (ReadSettings k) s
| RunDefs k d s : seen d -> runs (k d) s -> runs (ReadDefs k) s.

(** What a program returns when the answers to its requests satisfy [A] (for [subschema_for]) and
    [C] (for direct calls) *)
Section Post.
Variables A C : Ty -> json -> Prop.
Fixpoint post (Q : json -> Prop) (p : prog) : Prop :=
  match p with
  | Ret s => Q s
  | Sub t k => forall a, A t a -> post Q (k a)
  | Call t k => forall d, C t d -> post Q (k d)
  | ReadSettings k => post Q (k S)
  | ReadDefs k => forall d, seen d -> post Q (k d)
  | _ => True
  end.

Lemma post_weak (Q Q' : json -> Prop) p : (forall s, Q s -> Q' s) -> post Q p -> post Q' p.
Proof. intros H. induction p; cbn; auto. Qed.

Lemma run_post Q p s : runs p s ->
  (forall u r, R u -> t_inline (info u) = false -> ans u r -> A u (new_ref r)) ->
  (forall u d, R u -> derives u d -> A u d) ->
  (forall u d, R u -> derives u d -> C u d) ->
  post Q p -> Q s.
Proof. intros H HR HA HC. induction H; cbn; auto. Qed.
End Post.

Scheme derives_mut := Induction for derives Sort Prop
  with runs_mut := Induction for runs Sort Prop.

(** An invariant of all schemas *)
Theorem derives_inv (Q : Ty -> json -> Prop) :
  (forall t, R t -> post (fun u a => Q u a \/ (t_inline (info u) = false /\ exists r, a = new_ref r)) Q (Q t) (t_body (info t))) ->
  forall t s, R t -> derives t s -> Q t s.
Proof.
  intros H t s RT D. revert RT.
  refine (derives_mut (fun t s _ => R t -> Q t s)
    (fun p s _ => forall Z, post (fun u a => Q u a \/ (t_inline (info u) = false /\ exists r, a = new_ref r)) Q Z p -> Z s)
    _ _ _ _ _ _ _ t s D); cbn [post].
  - intros t' s' _ IH RT. apply IH, H, RT.
  - auto.
  - intros u k r s' _ HI _ _ IH Z HZ. apply IH, HZ. right. split; [exact HI|]. now exists r.
  - intros u k d s' RU _ IH1 _ IH2 Z HZ. apply IH2, HZ. left. now apply IH1.
  - intros u k d s' RU _ IH1 _ IH2 Z HZ. apply IH2, HZ. now apply IH1.
  - intros k s' _ IH Z HZ. apply IH, HZ.
  - intros k d s' HS _ IH Z HZ. apply IH, HZ, HS.
Qed.
End Rel.

(** Relative to the final state [gf] of the generator: *)
Section Final.
Variable u0 : uid.
Variable gf : gen.

Definition answer (t : Ty) (r : string) : Prop :=
  (r = "#" /\ uid_of info gf t = u0)
  \/ exists n, r = reference (s_path (g_set gf)) n /\ uget (uid_of info gf t) (g_names gf) = Some n.
Definition final_defs (d : map_t) : Prop :=
  forall n m, mget n d = Some (JObj m) -> mget n (g_defs gf) = Some (JObj m).

Definition derives_f := derives (g_set gf) answer final_defs.
Definition runs_f := runs (g_set gf) answer final_defs.

Definition owned (n : string) (d : json) : Prop :=
  exists t, R t /\ t_inline (info t) = false /\ uget (uid_of info gf t) (g_names gf) = Some n /\ derives_f t d.
End Final.

Definition leads (g gf : gen) : Prop :=
  g_set gf = g_set g
  /\ (forall u n, uget u (g_names g) = Some n -> uget u (g_names gf) = Some n)
  /\ final_defs gf (g_defs g).

Definition named (g : gen) : Prop := forall u n, uget u (g_names g) = Some n -> mhas n (g_defs g) = true.

(** Every name is the name of a type in [R] with the id that it is registered for, perhaps with a number. *)
Definition based (g : gen) : Prop := forall u n, uget u (g_names g) = Some n ->
  exists t, R t /\ t_inline (info t) = false /\ (n = t_name (info t) \/ exists i, n = numbered (t_name (info t)) i) /\ t_id (info t) = fst u.

Record step (P : gen -> Prop) (g g2 : gen) : Prop := {
  st_set : g_set g2 = g_set g;
  st_roots : g_roots g2 = g_roots g;
  st_names : forall u n, uget u (g_names g) = Some n -> uget u (g_names g2) = Some n;
  st_defs : forall n d, mget n (g_defs g) = Some d -> mget n (g_defs g2) = Some d;
  st_named : named g -> named g2;
  st_based : based g -> based g2;
  st_sorted : sorted_keys (map fst (g_defs g)) = true -> sorted_keys (map fst (g_defs g2)) = true;
  st_final : forall gf, leads g2 gf -> P gf /\
     forall u0, g_roots g = [u0] -> forall n d, mget n (g_defs g2) = Some d -> mget n (g_defs g) = Some d \/ owned u0 gf n d }.

Lemma leads_back (P : gen -> Prop) (g g2 gf : gen) : step P g g2 -> leads g2 gf -> leads g gf.
Proof.
  intros H (A & B & C). split; [rewrite A; apply (st_set _ _ _ H)|]. split.
  - intros u n Hu. apply B, (st_names _ _ _ H), Hu.
  - intros n m Hn. apply C, (st_defs _ _ _ H), Hn.
Qed.

Lemma step_refl (P : gen -> Prop) (g : gen) : (forall gf, leads g gf -> P gf) -> step P g g.
Proof. intros H. split; auto. Qed.

Lemma step_trans (P Q Z : gen -> Prop) (g g1 g2 : gen) :
  step P g g1 -> step Q g1 g2 -> (forall gf, leads g gf -> leads g1 gf -> leads g2 gf -> P gf -> Q gf -> Z gf) -> step Z g g2.
Proof.
  intros H1 H2 HR. split.
  - rewrite (st_set _ _ _ H2). apply (st_set _ _ _ H1).
  - rewrite (st_roots _ _ _ H2). apply (st_roots _ _ _ H1).
  - intros u n Hu. apply (st_names _ _ _ H2), (st_names _ _ _ H1), Hu.
  - intros u n Hu. apply (st_defs _ _ _ H2), (st_defs _ _ _ H1), Hu.
  - intros HN. apply (st_named _ _ _ H2), (st_named _ _ _ H1), HN.
  - intros HN. apply (st_based _ _ _ H2), (st_based _ _ _ H1), HN.
  - intros HN. apply (st_sorted _ _ _ H2), (st_sorted _ _ _ H1), HN.
  - intros gf L2. pose proof (leads_back _ _ _ _ H2 L2) as L1. pose proof (leads_back _ _ _ _ H1 L1) as L0.
    destruct (st_final _ _ _ H2 gf L2) as [Q2 D2]. destruct (st_final _ _ _ H1 gf L1) as [Q1 D1].
    split; [now apply HR|]. intros u0 HU n d Hn.
    assert (HU1 : g_roots g1 = [u0]) by (rewrite (st_roots _ _ _ H1); exact HU).
    destruct (D2 u0 HU1 n d Hn) as [Hn'|]; [|now right]. apply (D1 u0 HU). exact Hn'.
Qed.

(** States that differ in the bookkeeping only *)
Lemma step_same (P : gen -> Prop) (g g2 : gen) : g_set g2 = g_set g -> g_roots g2 = g_roots g -> g_names g2 = g_names g ->
  g_defs g2 = g_defs g -> (forall gf, leads g gf -> P gf) -> step P g g2.
Proof.
  intros A B C D HP. split; auto.
  - intros u n Hu. now rewrite C.
  - intros n d Hn. now rewrite D.
  - intros HN u n. rewrite C, D. apply HN.
  - intros HN u n. rewrite C. apply HN.
  - now rewrite D.
  - intros gf (L1 & L2 & L3). split; [apply HP; split; [congruence|split; [now rewrite <- C|now rewrite <- D]]|].
    intros u0 _ n d. rewrite D. auto.
Qed.

Definition good (js : Ty -> gen -> option (json * gen)) : Prop :=
  forall t g s g2 u0, R t -> js t g = Some (s, g2) -> g_roots g = [u0] -> named g ->
  step (fun gf => derives_f u0 gf t s) g g2.

Lemma step_weak (P Q : gen -> Prop) (g g2 : gen) : step P g g2 -> (forall gf, P gf -> Q gf) -> step Q g g2.
Proof.
  intros [A B C D F BA SO G] H. split; auto. intros gf L. destruct (G gf L) as [G1 G2]. split; auto.
Qed.

Lemma internal_good js t u g s g2 u0 : good js -> R t -> json_schema_internal js t u g = Some (s, g2) ->
  g_roots g = [u0] -> named g -> step (fun gf => derives_f u0 gf t s) g g2.
Proof.
  intros G RT. unfold json_schema_internal. destruct (umem u (g_pending g)); cbn [negb].
  - destruct (js t g) as [[s' g']|] eqn:E; [|discriminate]. intros [= <- <-] HR HN. eapply G; eauto.
  - destruct (js t _) as [[s' g']|] eqn:E; [|discriminate]. intros [= <- <-] HR HN.
    pose proof (G _ _ _ _ u0 RT E HR HN) as H.
    eapply step_trans; [apply (step_same (fun _ => True) g (with_pending (u :: g_pending g) g)); auto| |].
    + eapply step_trans; [exact H|apply (step_same (fun _ => True)); auto|]. intros gf _ _ _ HD _. exact HD.
    + intros gf _ _ _ _ HD. exact HD.
Qed.

Lemma uid_of_final (g gf : gen) t : g_set gf = g_set g -> uid_of info gf t = uid_of info g t.
Proof. unfold uid_of. now intros ->. Qed.

Lemma sub_good js t g s g2 u0 : good js -> R t -> subschema_for info js t g = Some (s, g2) ->
  g_roots g = [u0] -> named g ->
  step (fun gf => (t_inline (info t) = false /\ exists r, s = new_ref r /\ answer u0 gf t r) \/ derives_f u0 gf t s) g g2.
Proof.
  intros G RT. unfold subschema_for, find_ref.
  destruct (negb (t_inline (info t)) && _) eqn:ER; cbn [negb].
  2:{ intros E HR HN. eapply step_weak; [eapply internal_good; eauto|]. intros gf H. now right. }
  apply andb_prop in ER as [EI _]. apply negb_true_iff in EI.
  intros E HR HN. rewrite HR in E.
  destruct (uid_eqb u0 (uid_of info g t)) eqn:EU.
  { injection E as <- <-. apply uid_eqb_eq in EU.
    apply step_same; auto. intros gf L. left. split; [exact EI|]. exists "#". split; [reflexivity|].
    left. split; [reflexivity|]. rewrite (uid_of_final g gf t) by apply L. congruence. }
  set (u := uid_of info g t) in *.
  set (n := match uget u (g_names g) with Some n => n | None => choose_name (g_used g) (t_name (info t)) end).
  set (g1 := match uget u (g_names g) with Some _ => g | None => with_name u n g end).
  assert (E' : match (if mhas n (g_defs g1) then None else Some n) with
               | None => Some (new_ref (reference (s_path (g_set g)) n), emit (EvRef (g_roots g) t (reference (s_path (g_set g)) n)) g1)
               | Some name =>
                   match insert_new_subschema_for js t name u (emit (EvRef (g_roots g) t (reference (s_path (g_set g)) n)) g1) with
                   | Some g3 => Some (new_ref (reference (s_path (g_set g)) n), g3) | None => None end
               end = Some (s, g2)).
  { unfold n, g1. rewrite HR. destruct (uget u (g_names g)) as [n0|] eqn:EG; exact E. }
  clear E. set (r := reference (s_path (g_set g)) n) in *.
  set (ge := emit (EvRef (g_roots g) t r) g1) in *.
  assert (S1 : g_set ge = g_set g) by (unfold ge, g1; destruct (uget u (g_names g)); reflexivity).
  assert (S2 : g_roots ge = g_roots g) by (unfold ge, g1; destruct (uget u (g_names g)); reflexivity).
  assert (S3 : g_defs ge = g_defs g) by (unfold ge, g1; destruct (uget u (g_names g)); reflexivity).
  assert (S4 : uget u (g_names ge) = Some n).
  { unfold ge, g1, n. destruct (uget u (g_names g)) eqn:EG; cbn; [exact EG|]. now rewrite uid_eqb_refl. }
  assert (S5 : forall v m, uget v (g_names ge) = Some m -> uget v (g_names g) = Some m \/ (v = u /\ m = n)).
  { unfold ge, g1. destruct (uget u (g_names g)) eqn:EG; cbn; [auto|]. intros v m.
    destruct (uid_eqb v u) eqn:EV; [|auto]. apply uid_eqb_eq in EV. intros [= <-]. auto. }
  assert (S6 : forall v m, uget v (g_names g) = Some m -> uget v (g_names ge) = Some m).
  { unfold ge, g1. destruct (uget u (g_names g)) eqn:EG; cbn; [auto|]. intros v m Hv.
    destruct (uid_eqb v u) eqn:EV; [|exact Hv]. apply uid_eqb_eq in EV. subst v. congruence. }
  assert (SB : based g -> based ge).
  { intros HB v m Hv. destruct (S5 v m Hv) as [Hv'|[-> ->]]; [exact (HB v m Hv')|]. unfold n.
    destruct (uget u (g_names g)) as [n0|] eqn:EG; [exact (HB u n0 EG)|]. exists t. split; [exact RT|]. split; [exact EI|].
    split; [|reflexivity]. destruct (choose_name_shape (g_used g) (t_name (info t))) as [->|(i & _ & ->)]; [now left|right; now exists i]. }
  assert (S7 : g_defs g1 = g_defs g) by (unfold g1; destruct (uget u (g_names g)); reflexivity).
  rewrite S7 in E'. destruct (mhas n (g_defs g)) eqn:EM.
  - injection E' as <- <-. split; auto.
    + intros m d Hm. now rewrite S3.
    + intros _ v m Hv. rewrite S3. destruct (S5 v m Hv) as [H|[_ ->]]; [now apply (HN v)|exact EM].
    + now rewrite S3.
    + intros gf L. split; [|intros u1 _ m d Hm; left; now rewrite <- S3].
      left. split; [exact EI|]. exists r. split; [reflexivity|]. right. exists n.
      destruct L as (L1 & L2 & L3). split; [unfold r; rewrite L1, S1; reflexivity|].
      rewrite (uid_of_final g gf t) by congruence. apply L2, S4.
  - unfold insert_new_subschema_for in E'.
    set (gp := with_defs (mset n (JBool false) (g_defs ge)) ge) in *.
    destruct (json_schema_internal js t u gp) as [[d g3]|] eqn:EJ; [|discriminate].
    injection E' as <- <-.
    assert (D1 : g_defs gp = mset n (JBool false) (g_defs g)) by (unfold gp; cbn [with_defs g_defs]; now rewrite S3).
    assert (D2 : g_names gp = g_names ge) by reflexivity.
    assert (D3 : g_set gp = g_set g) by exact S1.
    assert (D4 : g_roots gp = g_roots g) by exact S2.
    clearbody gp ge. clear g1 S7.
    assert (HNp : named gp).
    { intros v m Hv. rewrite D2 in Hv. unfold mhas. rewrite D1, mget_mset. destruct (String.eqb_spec m n); [reflexivity|].
      destruct (S5 v m Hv) as [H|[_ ->]]; [|congruence]. apply (HN v m H). }
    assert (HRp : g_roots gp = [u0]) by congruence.
    pose proof (internal_good _ _ _ _ _ _ _ G RT EJ HRp HNp) as H.
    assert (HP : mget n (g_defs g3) = Some (JBool false)).
    { apply (st_defs _ _ _ H). now rewrite D1, mget_mset, String.eqb_refl. }
    split; cbn [emit with_defs g_set g_roots g_names g_defs].
    + rewrite (st_set _ _ _ H). exact D3.
    + rewrite (st_roots _ _ _ H). exact D4.
    + intros v m Hv. apply (st_names _ _ _ H). rewrite D2. auto.
    + intros m x Hm. rewrite mget_mset. destruct (String.eqb_spec m n) as [->|N].
      { unfold mhas in EM. now rewrite Hm in EM. }
      apply (st_defs _ _ _ H). rewrite D1, mget_mset. now destruct (String.eqb_spec m n).
    + intros _ v m Hv. unfold mhas. cbn [emit with_defs g_defs]. rewrite mget_mset. destruct (String.eqb m n); [reflexivity|].
      apply (st_named _ _ _ H HNp v m Hv).
    + intros HB. apply (st_based _ _ _ H). intros v m. rewrite D2. apply SB, HB.
    + intros HSo. apply sorted_mset, (st_sorted _ _ _ H). rewrite D1. now apply sorted_mset.
    + intros gf (L1 & L2 & L3). cbn in L1, L2, L3.
      assert (LF : leads g3 gf).
      { split; [exact L1|]. split; [exact L2|]. intros m x Hm. apply L3. rewrite mget_mset.
        destruct (String.eqb_spec m n) as [->|N]; [|exact Hm]. rewrite HP in Hm. discriminate. }
      destruct (st_final _ _ _ H gf LF) as [HD HO].
      assert (EU' : uid_of info gf t = u).
      { apply (uid_of_final g gf t). rewrite L1, (st_set _ _ _ H). exact D3. }
      assert (UN : uget (uid_of info gf t) (g_names gf) = Some n).
      { rewrite EU'. apply L2, (st_names _ _ _ H). rewrite D2. exact S4. }
      split.
      * left. split; [exact EI|]. exists r. split; [reflexivity|]. right. exists n. split; [|exact UN].
        unfold r. rewrite L1, (st_set _ _ _ H). now rewrite D3.
      * intros u1 HU1 m x. rewrite mget_mset. destruct (String.eqb_spec m n) as [->|N].
        -- intros [= <-]. right. exists t. split; [exact RT|]. split; [exact EI|]. split; [exact UN|]. rewrite HR in HU1. injection HU1 as <-. exact HD.
        -- intros Hm. rewrite HR in HU1. injection HU1 as <-.
           destruct (HO u0 HRp m x Hm) as [H1|H1]; [|now right]. left. rewrite D1, mget_mset in H1.
           destruct (String.eqb_spec m n); [congruence|exact H1].
Qed.

Lemma run_good js p : good js -> within R p -> forall g s g2 u0,
  run_prog info js p g = Some (s, g2) -> g_roots g = [u0] -> named g ->
  step (fun gf => runs_f u0 gf p s) g g2.
Proof.
  intros G. induction p as [d|t k IH|t k IH|t k IH|k IH|k IH|f k IH|b k IH|p IHp k IH]; intros HA g s g2 u0 E HR HN;
    cbn [run_prog within] in *.
  - injection E as <- <-. apply step_refl. intros gf _. constructor.
  - destruct (subschema_for info js t g) as [[d g1]|] eqn:ES; [|discriminate].
    pose proof (sub_good _ _ _ _ _ _ G (proj1 HA) ES HR HN) as H1.
    assert (HR1 : g_roots g1 = [u0]) by (rewrite (st_roots _ _ _ H1); exact HR).
    pose proof (IH d (proj2 HA d) g1 s g2 u0 E HR1 (st_named _ _ _ H1 HN)) as H2.
    eapply step_trans; [exact H1|exact H2|]. intros gf _ _ _ [(HI & r & -> & HC)|HD] HK.
    + exact (RunRef _ _ _ t k r s (proj1 HA) HI HC HK).
    + exact (RunInline _ _ _ t k d s (proj1 HA) HD HK).
  - destruct (js t g) as [[d g1]|] eqn:ES; [|discriminate].
    pose proof (G _ _ _ _ _ (proj1 HA) ES HR HN) as H1.
    assert (HR1 : g_roots g1 = [u0]) by (rewrite (st_roots _ _ _ H1); exact HR).
    pose proof (IH d (proj2 HA d) g1 s g2 u0 E HR1 (st_named _ _ _ H1 HN)) as H2.
    eapply step_trans; [exact H1|exact H2|]. intros gf _ _ _ HD HK. exact (RunCall _ _ _ t k d s (proj1 HA) HD HK).
  - contradiction.
  - pose proof (IH (g_set g) (HA _) g s g2 u0 E HR HN) as H.
    eapply step_trans; [exact (step_refl (fun _ => True) g (fun _ _ => I))|exact H|].
    intros gf L _ _ _ HK. apply RunSettings. destruct L as [L _]. unfold runs_f in HK. rewrite <- L in HK. exact HK.
  - pose proof (IH (g_defs g) (HA _) g s g2 u0 E HR HN) as H.
    eapply step_trans; [exact (step_refl (fun _ => True) g (fun _ _ => I))|exact H|].
    intros gf L _ _ _ HK. apply RunDefs with (d := g_defs g); [|exact HK]. apply L.
  - contradiction.
  - contradiction.
  - contradiction.
Qed.

Definition closed : Prop := forall t, R t -> within R (t_body (info t)).

Lemma json_schema_good m : closed -> good (json_schema info m).
Proof.
  intros HA. induction m as [|m IH]; intros t g s g2 u0 RT E HR HN; cbn [json_schema] in E; [discriminate|].
  destruct (run_prog _ _ _ _) as [[s' g']|] eqn:ER; [|discriminate]. injection E as <- <-.
  pose proof (run_good _ _ IH (HA t RT) _ _ _ u0 ER HR HN) as H.
  eapply step_trans; [apply (step_same (fun _ => True) g (emit (EvRun t) g)); auto| |].
  - eapply step_trans; [exact H|apply (step_same (fun _ => True)); auto|]. intros gf _ _ _ HD _. exact HD.
  - intros gf _ _ _ _ HD. now constructor.
Qed.

(** The document of a root schema on a new generator *)
Theorem root_derives_defs m t S st doc g' :
  closed -> R t -> s_transforms S = [] ->
  root_schema_for info (json_schema info m) t (new_gen S st) = Some (doc, g') ->
  exists gf sch,
    g_set gf = S
    /\ derives_f (uid_of info gf t) gf t sch
    /\ doc = JObj (add_definitions (s_path S) (root_object info t S sch) (g_defs gf))
    /\ (forall n d, mget n (g_defs gf) = Some d -> owned (uid_of info gf t) gf n d)
    /\ named gf
    /\ based gf
    /\ g_names gf = g_names g'
    /\ sorted_keys (map fst (g_defs gf)) = true
    /\ g_defs gf = g_defs g'.
Proof.
  intros HA RT HT E. pose proof E as E0. unfold root_schema_for in E.
  destruct (json_schema_internal _ _ _ _) as [[sch g1]|] eqn:EJ; [|discriminate].
  destruct (apply_transforms _ _) as [d2 g2] eqn:EA. injection E as <- <-.
  set (g0 := with_roots (uid_of info (new_gen S st) t :: g_roots (new_gen S st)) (new_gen S st)) in *.
  assert (HN : named g0).
  { intros u n H. discriminate. }
  pose proof (internal_good _ _ _ _ _ _ (uid_of info (new_gen S st) t) (json_schema_good m HA) RT EJ eq_refl HN) as H.
  pose proof (st_set _ _ _ H) as HS. cbn in HS.
  unfold apply_transforms in EA. rewrite HS, HT in EA. cbn in EA. injection EA as <- <-.
  assert (L : leads g1 g1) by (split; [reflexivity|split; [auto|intros n d; auto]]).
  destruct (st_final _ _ _ H g1 L) as [HD HO].
  assert (EU : uid_of info (new_gen S st) t = uid_of info g1 t) by (symmetry; now apply uid_of_final).
  rewrite EU in *.
  exists g1, sch. refine (conj HS (conj HD (conj _ (conj _ (conj _ (conj _ (conj eq_refl (conj _ eq_refl)))))))).
  - now rewrite ?HS.
  - intros n d Hn. destruct (HO _ eq_refl n d Hn) as [H1|H1]; [discriminate|]. rewrite <- EU. exact H1.
  - exact (st_named _ _ _ H HN).
  - apply (st_based _ _ _ H). intros u n Hu. discriminate.
  - exact (st_sorted _ _ _ H eq_refl).
Qed.

Theorem root_derives m t S st doc g' :
  closed -> R t -> s_transforms S = [] ->
  root_schema_for info (json_schema info m) t (new_gen S st) = Some (doc, g') ->
  exists gf sch,
    g_set gf = S
    /\ derives_f (uid_of info gf t) gf t sch
    /\ doc = JObj (add_definitions (s_path S) (root_object info t S sch) (g_defs gf))
    /\ (forall n d, mget n (g_defs gf) = Some d -> owned (uid_of info gf t) gf n d)
    /\ named gf
    /\ based gf
    /\ g_names gf = g_names g'
    /\ sorted_keys (map fst (g_defs gf)) = true.
Proof.
  intros HA RT HT E. destruct (root_derives_defs m t S st doc g' HA RT HT E) as (gf & sch & H1 & H2 & H3 & H4 & H5 & H6 & H7 & H8 & _).
  exists gf, sch. auto 10.
Qed.

End Derive.
