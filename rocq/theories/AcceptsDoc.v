(** The documents generated for the deserialize contract accept all JSON that serde reads. *)
From Coq Require Import String Ascii List ZArith Bool Lia.
From Verif Require Import Json JsonFacts Utf8 Encoding EncodingProofs SchemaApi Transform Validate ValidateFacts ValidateKw Pointer
  PointerProofs Private Generate GenerateDoc SerValue Types TypesShape Serde Derivation Properties_Root Properties_Types SoundBase SoundStruct SoundTypes
  SoundAdt Sound TypesSchema ShapeFacts Reads ReadsChecks ReadsStep Accepts AcceptsStep.
Import ListNotations.
Open Scope string_scope.
Open Scope list_scope.

Section Doc.
Context {St : Type}.
Variable items : nat -> item rval.
Variable text_ok : checks.
Variable E : env.
Hypothesis HFm : formats text_ok E.
Hypothesis HDp : decimal_patterns E.
Hypothesis HNum : forall n, e_fmt E "float" (JNum n) = true /\ e_fmt E "double" (JNum n) = true.
Variable sets : bool.
Variable tok : string.
Hypothesis tok_fresh : ~ In tok used.
Hypothesis tok_root : tok <> "title" /\ tok <> "$schema".
Variable S : settings St.
Hypothesis HSt : s_contract S = Deserialize.
Hypothesis HTr : s_transforms S = [].
Hypothesis HPath : good_path (s_path S).
Hypothesis HPu : utf8_valid (definitions_path_stripped (s_path S)) = true.
Hypothesis HPp : no_pct (definitions_path_stripped (s_path S)) = true.
Variable more : list string.
Hypothesis HTok : path_tokens (s_path S) = tok :: more.
Variable t : rty.
Notation R := (reach items t).
Hypothesis HRd : forall u, R u -> accepts_type items (wf_meta tok) sets u.
Hypothesis HNm : forall u, R u -> type_inline items u = false -> plain_name (type_name items u).
Hypothesis HId : forall u u', R u -> R u' -> type_inline items u = false -> type_id items u = type_id items u' -> unwrap u = unwrap u'.
Hypothesis HAc : forall u, R u -> Acc (fun w u => passes items u w) u.
Variables (fuel : nat) (st0 : St) (doc : json) (g' : gen rty St).
Hypothesis HRun : root_schema_for (info items) (json_schema (info items) fuel) t (new_gen S st0) = Some (doc, g').
Hypothesis HE : resolves E (s_path S) doc.
Notation ok_ := (valid D2020 E).
Notation reads_ := (reads items text_ok).
Notation safe := (safe E tok).
Notation step := (body_step items text_ok E HFm HDp HNum tok tok_fresh sets S HSt).

Lemma reads_strip u j : accepts_type items (wf_meta tok) sets u -> reads_ u j -> reads_ (unwrap u) j.
Proof. induction u; cbn [accepts_type unwrap]; intros HA H; try contradiction; auto. apply IHu; [exact HA|now apply (reads_fwd items text_ok)]. Qed.

(** What holds of all schemas *)
Definition formed (u : rty) (s : json) : Prop :=
  safe s /\ (u = TUnit -> s = type_schema "null") /\ (key_string u -> s = type_schema "string") /\ (accepts_key u -> key_form s)
  /\ (forall i, u = TInt i -> s = int_schema i) /\ struct_form items u s.

Lemma formed_open w s : formed w s -> open_struct items w -> exists m, s = JObj m /\ open_form items w m.
Proof.
  intros (_ & _ & _ & _ & _ & HF & _) HO. assert (HU : unwrap w = w) by (destruct HO as (? & ? & ? & ? & ? & -> & _); reflexivity).
  rewrite HU in HF. auto.
Qed.

(** A key that a struct does not look at may be added. *)
Lemma added w m tag o : open_form items w m -> ~ takes_key items w tag -> NoDup (map fst o) -> ok_ (JObj m) (JObj (mdel tag o)) = true -> ok_ (JObj m) (JObj o) = true.
Proof.
  intros [HO HF] HT ND HV. destruct (shape_holds E m _ (os_shape _ _ _ HO) HV) as [H1 H2].
  apply holds_open; [apply HO|apply HO|apply HO|apply HO|]. split.
  - intros k s x Hs Hx. apply (H1 k s x Hs). apply mget_In. rewrite mget_mdel. destruct (String.eqb_spec k tag) as [->|]; [|now apply NoDup_mget].
    elim HT. apply (os_names _ _ _ HO). congruence.
  - intros k Hk HX. apply (H2 k Hk). rewrite mget_mdel, HX. now destruct (String.eqb k tag).
Qed.

Lemma all_formed ans seen u s : R u -> derives (info items) R S ans seen u s -> formed u s.
Proof.
  revert u s. apply (derives_inv (info items) R S ans seen). intros u HU. cbn [info t_body t_inline].
  eapply post_weak; [|eapply (post_mono S seen); [| |exact (step seen (fun _ => True) (fun _ _ => False) u (HRd u HU))]].
  - intros s (H1 & H2 & H3 & H4 & H5 & H6 & _). unfold formed. auto 10.
  - intros w a [H|(HI & r & ->)].
    + split; [split; [exact I|split; [apply H|intros x []]]|]. split; [intros ? ? []|]. split; [apply H|]. intros HO. right. now apply formed_open.
    + split; [split; [exact I|split; [now apply safe_ref|intros x []]]|]. split; [intros ? ? []|]. split; [intros ->; discriminate|]. left. eauto.
  - intros w a H. pose proof H as (H1 & H2 & H3 & H4 & H5 & H6). split; [|split; [exact H3|split; [exact H4|split; [exact H5|exact H6]]]].
    split; [split; [exact I|split; [exact H1|intros x []]]|]. split; [intros ? ? []|]. split; [exact H2|]. intros HO. right. now apply formed_open.
Qed.

Section Final.
Variables (gf : gen rty St) (sch : json).
Hypothesis FS : g_set gf = S.
Hypothesis FD : derives_f (info items) R (uid_of (info items) gf t) gf t sch.
Hypothesis FDoc : doc = JObj (add_definitions (s_path S) (root_object (info items) t S sch) (g_defs gf)).
Hypothesis FO : forall n d, mget n (g_defs gf) = Some d -> owned (info items) R (uid_of (info items) gf t) gf n d.
Hypothesis FN : named gf.
Hypothesis FB : based (info items) R gf.
Hypothesis FI : forall u v n, uget u (g_names gf) = Some n -> uget v (g_names gf) = Some n -> u = v.
Hypothesis FSo : sorted_keys (map fst (g_defs gf)) = true.
Notation derives_ := (derives_f (info items) R (uid_of (info items) gf t) gf).

Lemma root_formed : formed t sch.
Proof. unfold derives_f in FD. rewrite FS in FD. eapply all_formed; [apply reach_refl|exact FD]. Qed.

Lemma token_absent : mget tok (root_object (info items) t S sch) = None.
Proof.
  assert (HT : mget tok (ensure_obj sch) = None).
  { pose proof (sf_room _ _ _ (proj1 root_formed)) as HT. pose proof (sf_false _ _ _ (proj1 root_formed)) as HS.
    destruct sch as [|[]| | | |m]; try reflexivity; [now elim HS|exact HT]. }
  destruct tok_root as [T1 T2].
  unfold root_object. destruct (s_meta S).
  - rewrite mget_mset. destruct (String.eqb_spec tok "$schema"); [contradiction|]. destruct (mhas "title" _); [exact HT|].
    rewrite mget_mset. destruct (String.eqb_spec tok "title"); [contradiction|exact HT].
  - destruct (mhas "title" _); [exact HT|]. rewrite mget_mset. destruct (String.eqb_spec tok "title"); [contradiction|exact HT].
Qed.

Lemma definition_at r n d : mget n (g_defs gf) = Some d ->
  effective_pointer r = Some (definitions_path_stripped (s_path S) ++ String "/" (ptr_escape n))%string -> s_pointer doc r = Some d.
Proof.
  intros H HP. rewrite FDoc. eapply at_pointer; eauto; [now apply sorted_NoDup|]. rewrite HTok. cbn [room]. now rewrite token_absent.
Qed.

Lemma root_means v : ok_ doc v = ok_ sch v.
Proof.
  pose proof (sf_schema _ _ _ (proj1 root_formed)) as HS. rewrite <- (valid_ensure E sch v HS). rewrite FDoc.
  assert (HT : forall k, In k kws \/ In k ctx -> k <> tok /\ k <> "title" /\ k <> "$schema").
  { intros k Hk. split; [|split].
    - intros ->. apply tok_fresh. unfold used. rewrite !in_app_iff. tauto.
    - intros ->. destruct Hk as [Hk|Hk]; cbn in Hk; repeat (destruct Hk as [Hk|Hk]; [discriminate|]); exact Hk.
    - intros ->. destruct Hk as [Hk|Hk]; cbn in Hk; repeat (destruct Hk as [Hk|Hk]; [discriminate|]); exact Hk. }
  apply ok_ext. intros k Hk. destruct (HT k Hk) as (K1 & K2 & K3).
  rewrite (root_object_of (info items) t S sch (g_defs gf) (s_path S) HPath k).
  - destruct (String.eqb_spec k "$schema"); [contradiction|]. destruct (String.eqb_spec k "title"); [contradiction|]. reflexivity.
  - intros a ts HA. rewrite HTok in HA. injection HA as <- <-. exact K1.
Qed.

(** A reference stands for the schema of a type with the same id. *)
Lemma ref_means w r : R w -> type_inline items w = false -> answer (info items) (uid_of (info items) gf t) gf w r ->
  exists w' d, R w' /\ unwrap w' = unwrap w /\ derives_ w' d /\ forall x, ok_ (new_ref r) x = ok_ d x.
Proof.
  intros HW HI [(-> & HU0)|(m & -> & HN)].
  - unfold uid_of in HU0. injection HU0 as HU0. cbn [info t_id] in HU0. exists t, sch. split; [apply reach_refl|]. split; [symmetry; apply HId; auto; apply reach_refl|].
    split; [exact FD|]. intros x. rewrite ok_ref. erewrite HE; [|now left|reflexivity]. apply root_means.
  - pose proof (FN _ _ HN) as HM. unfold mhas in HM. destruct (mget m (g_defs gf)) as [d|] eqn:Hd; [|discriminate].
    destruct (FO m d Hd) as (w' & HW' & HI' & HN' & HD'). pose proof (FI _ _ _ HN HN') as HU0. unfold uid_of in HU0. injection HU0 as HU0. cbn [info t_id] in HU0.
    exists w', d. split; [exact HW'|]. split; [symmetry; apply HId; auto|]. split; [exact HD'|].
    intros x. destruct (FB _ _ HN) as (w2 & HW2 & HI2 & HN2 & _).
    assert (HPl : plain_name m) by (destruct HN2 as [->|(i & ->)]; [|apply plain_numbered]; now apply HNm).
    destruct HPl as [HPl1 HPl2]. destruct (plain_all _ HPl2) as (HC & _).
    rewrite ok_ref. unfold reference. erewrite HE; [reflexivity| |]; rewrite FS.
    { right. exists m. split; [now split|now left]. }
    eapply definition_at; eauto. rewrite <- (lossy_id m HC) at 2. now apply effective_ref_string.
Qed.

Lemma passes_unwrap u w : passes items u w <-> passes items (unwrap u) w.
Proof. induction u; cbn [unwrap passes]; tauto. Qed.

Lemma all_accept n : forall u0, Acc (fun w u => passes items u w) u0 -> forall j, depth j < n -> input sets j ->
  forall u s, R u -> unwrap u = unwrap u0 -> derives_ u s -> reads_ (unwrap u) j -> ok_ s j = true.
Proof.
  induction n as [|n IHn]; intros u0 HA; [lia|]. induction HA as [u0 HA0 IHu]. intros j HL HI u s HU HUn HD HV.
  inversion HD as [u' s' HRn]; subst u' s'. rewrite FS in HRn. cbn [info t_body] in HRn.
  pose (J := fun w x => input sets x /\ R w /\ (depth x < depth j \/ (depth x <= depth j /\ passes items u w))).
  assert (HK : forall w d x, R w -> derives_ w d -> forall w', unwrap w = unwrap w' -> J w' x -> reads_ (unwrap w) x -> ok_ d x = true).
  { intros w d x HW HDw w' HWn (HX & HRw & [HL'|[HLx HP]]) HVx.
    - apply (IHn w' (HAc w' HRw) x) with (u := w); auto. lia.
    - apply (IHu w') with (u := w); auto; [|lia]. rewrite passes_unwrap, <- HUn, <- passes_unwrap. exact HP. }
  assert (HFd : forall w d, R w -> derives (info items) R S (answer (info items) (uid_of (info items) gf t) gf) (final_defs gf) w d -> A items text_ok E tok R J w d).
  { intros w d HW HDw. pose proof (all_formed _ _ w d HW HDw) as HF. split; [split; [exact HW|split; [apply HF|]]|split; [|split; [apply HF|]]].
    - intros x HJ HVx. eapply HK; eauto; [unfold derives_f; now rewrite FS|]. apply reads_strip; auto.
    - intros tag o _ HO HT ND Ho. destruct (formed_open _ _ HF HO) as (m & -> & HOF). eapply added; eauto.
    - intros HO. right. now apply formed_open. }
  assert (HF : fits items text_ok E tok sets R J u s).
  { refine (run_post (info items) R S _ (final_defs gf) (A items text_ok E tok R J) (C items text_ok E tok R J) _ _ s HRn _ _ _
      (step (final_defs gf) R J u (HRd u HU))).
    - intros w r HW HIw HAn. destruct (ref_means w r HW HIw HAn) as (w' & d & HW' & HUw & HDw & HM). split; [split; [exact HW|split; [now apply safe_ref|]]|split; [|split]].
      + intros x HJ HVx. rewrite HM. eapply HK; eauto. rewrite HUw. apply reads_strip; auto.
      + intros tag o _ HO HT ND. rewrite !HM.
        assert (HU' : unwrap w = w) by (destruct HO as (? & ? & ? & ? & ? & -> & _); reflexivity).
        assert (HX : exists m, d = JObj m /\ open_form items w m).
        { unfold derives_f in HDw. rewrite FS in HDw. destruct (all_formed _ _ w' d HW' HDw) as (_ & _ & _ & _ & _ & HF & _). rewrite HUw, HU' in HF. auto. }
        destruct HX as (m & -> & HOF). eapply added; eauto.
      + intros ->. discriminate.
      + left. eauto.
    - exact HFd.
    - intros w d HW HDw. destruct (all_formed _ _ w d HW HDw) as (F1 & F2 & F3 & F4 & F5 & F6). split; [now apply HFd|]. split; [exact F3|]. split; [exact F4|]. split; [exact F5|exact F6]. }
  destruct HF as (_ & _ & _ & _ & _ & _ & HF). apply HF; auto.
  - intros w x HW HLx HX. split; auto.
  - intros w x HW HP HLx HX. split; [exact HX|]. split; auto.
Qed.
End Final.

Theorem root_accepts j : input sets j -> reads_ t j -> ok_ doc j = true.
Proof.
  intros HI HV. destruct (final items S HTr t fuel st0 doc g' HRun) as (gf & sch & H1 & H2 & H3 & H4 & H5 & H6 & H7 & H8).
  erewrite root_means; eauto. assert (HT : reads_ (unwrap t) j) by (apply reads_strip; [|exact HV]; apply HRd, reach_refl).
  assert (HRt : R t) by apply reach_refl. apply (all_accept gf sch) with (n := Datatypes.S (depth j)) (u0 := t) (u := t); auto.
Qed.
End Doc.
