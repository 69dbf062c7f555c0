(** The documents generated for the deserialize contract accept only JSON that serde reads. *)
From Coq Require Import String Ascii List ZArith Bool Lia.
From Verif Require Import Json JsonFacts Utf8 Encoding EncodingProofs SchemaApi Transform Validate ValidateFacts ValidateKw Pointer
  PointerProofs Private Generate GenerateDoc SerValue Types TypesShape Serde Derivation Properties_Root SoundBase SoundStruct SoundTypes
  SoundAdt Sound TypesSchema ShapeFacts Reads ReadsChecks ReadsStep.
Import ListNotations.
Open Scope string_scope.
Open Scope list_scope.

Section Doc.
Context {St : Type}.
Variable items : nat -> item rval.
Variable text_ok : checks.
Variable E : env.
Hypothesis HFm : checks_formats text_ok E.
Variable tok : string.
Hypothesis tok_fresh : ~ In tok used.
Hypothesis tok_root : tok <> "title" /\ tok <> "$schema".
Variable S : settings St.
Hypothesis HSt : s_contract S = Deserialize.
Hypothesis HTr : s_transforms S = [].
Hypothesis HPath : good_path (s_path S).
Hypothesis HPu : utf8_valid (definitions_path_stripped (s_path S)) = true.
Hypothesis HPp : no_pct (definitions_path_stripped (s_path S)) = true.
Variable more : list string.
Hypothesis HTok : path_tokens (s_path S) = tok :: more.
Variable t : rty.
Notation R := (reach items t).
Hypothesis HRd : forall u, R u -> readable_type items (wf_meta tok) u.
Hypothesis HNm : forall u, R u -> type_inline items u = false -> plain_name (type_name items u).
Hypothesis HId : forall u u', R u -> R u' -> type_inline items u = false -> type_id items u = type_id items u' -> unwrap u = unwrap u'.
Hypothesis HAc : forall u, R u -> Acc (fun w u => passes items u w) u.
Variables (fuel : nat) (st0 : St) (doc : json) (g' : gen rty St).
Hypothesis HRun : root_schema_for (info items) (json_schema (info items) fuel) t (new_gen S st0) = Some (doc, g').
Hypothesis HE : resolves E (s_path S) doc.
Notation ok_ := (valid D2020 E).
Notation reads_ := (reads items text_ok).
Notation neat := (neat tok).
Notation step := (body_step items text_ok E HFm tok tok_fresh S HSt).

Lemma neat_ref r : neat (new_ref r).
Proof. unfold new_ref. change (JObj [("$ref", JStr r)]) with (obj [("$ref", JStr r)]). apply neat_obj; [exact tok_fresh|reflexivity]. Qed.

(** What holds of all schemas *)
Definition formed (u : rty) (s : json) : Prop :=
  neat s /\ (u = TUnit -> s = type_schema "null") /\ (key_string u -> s = type_schema "string") /\ (forall i, u = TInt i -> s = int_schema i)
  /\ shape u s /\ struct_formed items u s.

Lemma all_formed ans seen u s : R u -> derives (info items) R S ans seen u s -> formed u s.
Proof.
  revert u s. apply (derives_inv (info items) R S ans seen). intros u HU. cbn [info t_body t_inline].
  eapply post_weak; [|eapply (post_mono S seen); [| |exact (step seen (fun _ => True) (fun _ _ => False) u (HRd u HU))]].
  - intros s (H1 & H2 & H3 & H4 & H5 & H6 & _). unfold formed. auto 10.
  - intros w a [H|(HI & r & ->)].
    + split; [|split; [apply H|split; [apply H|split; [intros HO; right; now apply H|intros HO; now apply H]]]]. split; [exact I|]. split; [apply H|]. intros x [].
    + split; [|split; [intros ->; discriminate|split; [eapply shape_ref; exact HI|split; [left; eauto|reflexivity]]]]. split; [exact I|]. split; [apply neat_ref|]. intros x [].
  - intros w a (H1 & H2 & H3 & H4 & H5 & H6). split; [|split; [|split]; assumption]. split; [|split; [|split; [|split; [intros HO; right; now apply H6|intros HO; now apply H6]]]; auto]. split; [exact I|]. split; [exact H1|]. intros x [].
Qed.

Section Final.
Variables (gf : gen rty St) (sch : json).
Hypothesis FS : g_set gf = S.
Hypothesis FD : derives_f (info items) R (uid_of (info items) gf t) gf t sch.
Hypothesis FDoc : doc = JObj (add_definitions (s_path S) (root_object (info items) t S sch) (g_defs gf)).
Hypothesis FO : forall n d, mget n (g_defs gf) = Some d -> owned (info items) R (uid_of (info items) gf t) gf n d.
Hypothesis FN : named gf.
Hypothesis FB : based (info items) R gf.
Hypothesis FI : forall u v n, uget u (g_names gf) = Some n -> uget v (g_names gf) = Some n -> u = v.
Hypothesis FSo : sorted_keys (map fst (g_defs gf)) = true.
Notation derives_ := (derives_f (info items) R (uid_of (info items) gf t) gf).

Lemma root_formed : formed t sch.
Proof. unfold derives_f in FD. rewrite FS in FD. eapply all_formed; [apply reach_refl|exact FD]. Qed.

Lemma token_absent : mget tok (root_object (info items) t S sch) = None.
Proof.
  pose proof (nt_room _ _ (proj1 root_formed)) as HT. destruct tok_root as [T1 T2].
  unfold root_object. destruct (s_meta S).
  - rewrite mget_mset. destruct (String.eqb_spec tok "$schema"); [contradiction|]. destruct (mhas "title" _); [exact HT|].
    rewrite mget_mset. destruct (String.eqb_spec tok "title"); [contradiction|exact HT].
  - destruct (mhas "title" _); [exact HT|]. rewrite mget_mset. destruct (String.eqb_spec tok "title"); [contradiction|exact HT].
Qed.

Lemma definition_at r n d : mget n (g_defs gf) = Some d ->
  effective_pointer r = Some (definitions_path_stripped (s_path S) ++ String "/" (ptr_escape n))%string -> s_pointer doc r = Some d.
Proof.
  intros H HP. rewrite FDoc. eapply at_pointer; eauto; [now apply sorted_NoDup|]. rewrite HTok. cbn [room]. now rewrite token_absent.
Qed.

Lemma root_means v : ok_ doc v = ok_ sch v.
Proof.
  pose proof (nt_schema _ _ (proj1 root_formed)) as HS. rewrite <- (valid_ensure E sch v HS). rewrite FDoc.
  assert (HT : forall k, In k kws \/ In k ctx -> k <> tok /\ k <> "title" /\ k <> "$schema").
  { intros k Hk. split; [|split].
    - intros ->. apply tok_fresh. unfold used. rewrite !in_app_iff. tauto.
    - intros ->. destruct Hk as [Hk|Hk]; cbn in Hk; repeat (destruct Hk as [Hk|Hk]; [discriminate|]); exact Hk.
    - intros ->. destruct Hk as [Hk|Hk]; cbn in Hk; repeat (destruct Hk as [Hk|Hk]; [discriminate|]); exact Hk. }
  apply ok_ext. intros k Hk. destruct (HT k Hk) as (K1 & K2 & K3).
  rewrite (root_object_of (info items) t S sch (g_defs gf) (s_path S) HPath k).
  - destruct (String.eqb_spec k "$schema"); [contradiction|]. destruct (String.eqb_spec k "title"); [contradiction|]. reflexivity.
  - intros a ts HA. rewrite HTok in HA. injection HA as <- <-. exact K1.
Qed.

(** A reference stands for the schema of a type with the same id. *)
Lemma ref_means w r : R w -> type_inline items w = false -> answer (info items) (uid_of (info items) gf t) gf w r ->
  exists w' d, R w' /\ unwrap w' = unwrap w /\ derives_ w' d /\ forall x, ok_ (new_ref r) x = ok_ d x.
Proof.
  intros HW HI [(-> & HU0)|(m & -> & HN)].
  - unfold uid_of in HU0. injection HU0 as HU0. cbn [info t_id] in HU0. exists t, sch. split; [apply reach_refl|]. split; [symmetry; apply HId; auto; apply reach_refl|].
    split; [exact FD|]. intros x. rewrite ok_ref. erewrite HE; [|now left|reflexivity]. apply root_means.
  - pose proof (FN _ _ HN) as HM. unfold mhas in HM. destruct (mget m (g_defs gf)) as [d|] eqn:Hd; [|discriminate].
    destruct (FO m d Hd) as (w' & HW' & HI' & HN' & HD'). pose proof (FI _ _ _ HN HN') as HU0. unfold uid_of in HU0. injection HU0 as HU0. cbn [info t_id] in HU0.
    exists w', d. split; [exact HW'|]. split; [symmetry; apply HId; auto|]. split; [exact HD'|].
    intros x. destruct (FB _ _ HN) as (w2 & HW2 & HI2 & HN2 & _).
    assert (HPl : plain_name m) by (destruct HN2 as [->|(i & ->)]; [|apply plain_numbered]; now apply HNm).
    destruct HPl as [HPl1 HPl2]. destruct (plain_all _ HPl2) as (HC & _).
    rewrite ok_ref. unfold reference. erewrite HE; [reflexivity| |]; rewrite FS.
    { right. exists m. split; [now split|now left]. }
    eapply definition_at; eauto. rewrite <- (lossy_id m HC) at 2. now apply effective_ref_string.
Qed.

Lemma passes_unwrap u w : passes items u w <-> passes items (unwrap u) w.
Proof. induction u; cbn [unwrap passes]; tauto. Qed.

Lemma all_read n : forall u0, Acc (fun w u => passes items u w) u0 -> forall j, depth j < n -> instance j ->
  forall u s, R u -> unwrap u = unwrap u0 -> derives_ u s -> ok_ s j = true -> reads_ (unwrap u) j.
Proof.
  induction n as [|n IHn]; intros u0 HA; [lia|]. induction HA as [u0 HA0 IHu]. intros j HL HI u s HU HUn HD HV.
  inversion HD as [u' s' HRn]; subst u' s'. rewrite FS in HRn. cbn [info t_body] in HRn.
  pose (J := fun w x => instance x /\ R w /\ (depth x < depth j \/ (depth x <= depth j /\ passes items u w))).
  assert (HK : forall w d x, R w -> derives_ w d -> forall w', unwrap w = unwrap w' -> J w' x -> ok_ d x = true -> reads_ (unwrap w) x).
  { intros w d x HW HDw w' HWn (HX & HRw & [HL'|[HLx HP]]) HVx.
    - eapply (IHn w'); eauto. lia.
    - eapply (IHu w'); eauto; [|lia]. rewrite passes_unwrap, <- HUn, <- passes_unwrap. exact HP. }
  assert (HF : fits items text_ok E tok R J u s).
  { refine (run_post (info items) R S _ (final_defs gf) (A items text_ok E tok R J) (C items text_ok E tok R J) _ _ s HRn _ _ _
      (step (final_defs gf) R J u (HRd u HU))).
    - intros w r HW HIw HAn. split; [|split; [intros ->; discriminate|split; [eapply shape_ref; exact HIw|split; [left; eauto|reflexivity]]]]. split; [exact HW|]. split; [apply neat_ref|].
      intros x HJ HVx. destruct (ref_means w r HW HIw HAn) as (w' & d & HW' & HUw & HDw & HM). rewrite HM in HVx.
      apply (reads_unwrap items text_ok). rewrite <- HUw. eapply HK; eauto.
    - intros w d HW HDw. destruct (all_formed _ _ w d HW HDw) as (F1 & F2 & _ & _ & F5 & F6). split; [|split; [assumption|split; [assumption|split; [intros HO; right; now apply F6|intros HO; now apply F6]]]]. split; [exact HW|]. split; [exact F1|].
      intros x HJ HVx. apply (reads_unwrap items text_ok). eapply HK; eauto. unfold derives_f. now rewrite FS.
    - intros w d HW HDw. destruct (all_formed _ _ w d HW HDw) as (F1 & F2 & F3 & F4 & F5 & F6). split; [|split; [|split]; assumption].
      split; [|split; [assumption|split; [assumption|split; [intros HO; right; now apply F6|intros HO; now apply F6]]]]. split; [exact HW|]. split; [exact F1|].
      intros x HJ HVx. apply (reads_unwrap items text_ok). eapply HK; eauto. unfold derives_f. now rewrite FS. }
  destruct HF as (_ & _ & _ & _ & _ & _ & HF). apply HF; auto.
  - intros w x HW HLx HX. split; auto.
  - intros w x HW HP HLx HX. split; [exact HX|]. split; auto.
Qed.
End Final.

Theorem root_reads j : instance j -> ok_ doc j = true -> reads_ t j.
Proof.
  intros HI HV. destruct (final items S HTr t fuel st0 doc g' HRun) as (gf & sch & H1 & H2 & H3 & H4 & H5 & H6 & H7 & H8).
  erewrite root_means in HV; eauto. apply (reads_unwrap items text_ok). eapply (all_read gf sch); eauto; [apply HAc|]; apply reach_refl.
Qed.
End Doc.
