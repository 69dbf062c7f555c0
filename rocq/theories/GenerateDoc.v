(** References and the returned document. *)
From Coq Require Import String Ascii List ZArith Bool Lia Decimal DecimalString.
From Verif Require Import Json JsonFacts Utf8 Encoding EncodingProofs Pointer PointerProofs SchemaApi
  Generate GenerateSpec GenerateProofs GenerateRun GenerateTrace.
Import ListNotations.
Open Scope string_scope.
Open Scope list_scope.

(** ** Names *)
Definition good_name (s : string) : Prop := utf8_valid s = true /\ sforall not_control s = true.

Lemma digits_ascii d : all_ascii (NilEmpty.string_of_uint d) = true.
Proof. induction d; cbn; auto. Qed.

Lemma digits_not_control d : sforall not_control (NilEmpty.string_of_uint d) = true.
Proof. induction d; cbn; auto. Qed.

Lemma good_numbered base i : good_name base -> good_name (numbered base i).
Proof.
  intros [A B]. unfold numbered. split.
  - apply utf8_utf8_valid, utf8_app; [now apply utf8_valid_utf8|]. apply all_ascii_utf8, digits_ascii.
  - rewrite sforall_app, B. cbn. apply digits_not_control.
Qed.

Lemma reference_inj path a b : reference path a = reference path b -> a = b.
Proof.
  unfold reference. intros [= H]. apply EncodingProofs.append_inj_l in H. injection H as H.
  now apply encode_ref_name_inj.
Qed.

Section Doc.
Context {Ty St : Type}.
Variable info : Ty -> tyinfo Ty St.
Notation gen := (gen Ty St).
Notation prog := (prog Ty St).

Lemma root_document m t (g : gen) doc g' :
  s_transforms (g_set g) = [] ->
  root_schema_for info (json_schema info m) t g = Some (doc, g') ->
  exists sch, produced info t sch g'
    /\ doc = JObj (add_definitions (s_path (g_set g)) (root_object info t (g_set g) sch) (g_defs g')).
Proof.
  intros HT H. unfold root_schema_for in H.
  destruct (json_schema_internal _ _ _ _) as [[s1 g1]|] eqn:E1; [|discriminate].
  destruct (apply_transforms _ _) as [s2 g2] eqn:E2. injection H as <- <-.
  pose proof (internal_produced _ _ _ _ _ _ _ E1) as HP.
  apply internal_frame in E1; [|apply json_schema_frame].
  pose proof (fr_set _ _ E1) as ES. cbn in ES.
  unfold apply_transforms in E2. rewrite ES, HT in E2. cbn in E2. injection E2 as <- <-.
  exists s1. split; [exact HP|]. cbn. reflexivity.
Qed.

(** A program, then a root schema: what the references lead to. *)
Lemma refs_resolve m t g doc g' l :
  all_allowed no_edit info -> inv info [] g ->
  root_schema_for info (json_schema info m) t g = Some (doc, g') ->
  g_log g' = l ++ g_log g ->
  s_transforms (g_set g) = [] ->
  good_path (s_path (g_set g)) ->
  utf8_valid (definitions_path_stripped (s_path (g_set g))) = true ->
  no_pct (definitions_path_stripped (s_path (g_set g))) = true ->
  (forall u, good_name (t_name (info u))) ->
  (forall sch, produced info t sch g' ->
     room (path_tokens (s_path (g_set g))) (root_object info t (g_set g) sch)) ->
  forall rs u r, In (EvRef rs u r) l -> r <> "#" ->
  exists d v, s_pointer doc r = Some d /\ t_id (info v) = t_id (info u) /\ produced info v d g'.
Proof.
  intros HA I E EL HT HG HU HP HN HR rs u r Hin Hr.
  destruct (root_document _ _ _ _ _ HT E) as (sch & Hsch & ->).
  assert (G : grows info g g') by (eapply root_grows; [apply json_schema_grows, HA|exact E]).
  assert (HS : all_allowed no_set info).
  { intros x. assert (W : forall p : prog, allowed no_edit p -> allowed no_set p).
    { induction p; cbn; intuition. } apply W, HA. }
  assert (K : keeps info g g') by (eapply root_keeps; [apply json_schema_keeps, HS|exact E]).
  destruct K as [F K]. pose proof (K [] I) as I'. clear K.
  destruct G as [l' A]. assert (l' = l) as ->.
  { pose proof (ad_log _ _ _ _ A) as H0. rewrite EL in H0. now apply app_inv_tail in H0. }
  destruct (ad_ref _ _ _ _ A rs u r Hin) as [_ [[HC _]|(n & -> & HNm & HD)]]; [congruence|].
  apply mhas_mget in HD as [d Hd].
  destruct (inv_defs _ _ _ I' n d Hd) as [[t0 Ht0] [[v Hv]|[]]].
  destruct (inv_prod _ _ _ I' v n d Hv) as [Hpr Hv2].
  exists d, v. split; [|split; [|exact Hpr]].
  - change (reference (s_path (g_set g)) n) with (ref_string (s_path (g_set g)) n).
    destruct (inv_base _ _ _ I' _ _ HNm) as (b & _ & Hb).
    assert (good_name n) as [HG1 HG2].
    { destruct Hb as [->|(i & _ & ->)]; [apply HN|apply good_numbered, HN]. }
    apply ref_resolves; auto. apply sorted_NoDup, (inv_sorted _ _ _ I').
  - rewrite (uid_of_set info g g') in Hv2 by apply (fr_set _ _ F).
    assert (uid_of info g v = uid_of info g u) as HE.
    { rewrite <- (uid_of_set info g g' v) by apply (fr_set _ _ F).
      rewrite <- (uid_of_set info g g' u) by apply (fr_set _ _ F).
      rewrite <- (uid_of_set info g g' u) in HNm by apply (fr_set _ _ F).
      rewrite <- (uid_of_set info g g' v) in Hv2 by apply (fr_set _ _ F).
      eapply inv_inj; eauto. }
    unfold uid_of in HE. congruence.
Qed.

End Doc.
