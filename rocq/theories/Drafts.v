(** Proofs: generated documents and the transforms of the ready-made settings. *)
From Coq Require Import String Ascii List ZArith Bool Lia.
From Verif Require Import Json JsonFacts Utf8 Encoding EncodingProofs Pointer PointerProofs SchemaApi Transform TransformSpec TransformProofs
  Validate ValidateFacts TransformSem TransformNullable TransformUneval TransformPost TransformPipe TransformDoc
  Private Generate Types TypeId Sound Independent Settings Wellformed WellformedFacts.
Import ListNotations.
Open Scope string_scope.
Open Scope list_scope.
Notation ue := "unevaluatedProperties".

(** ** Transforms come last *)
Definition transformed {St} (s : settings St) (st : St) (doc : json) : json :=
  fst (fold_left (fun '(d, x) f => f d x) (s_transforms s) (doc, st)).

Lemma root_independent {X S1 S2} (items : nat -> item X) (sa : settings S1) (sb : settings S2) xa xb n t g h :
  agree sa sb -> s_meta sa = s_meta sb -> s_transforms sb = [] -> sim sa sb xa xb g h ->
  match root_schema_for (info items) (json_schema (info items) n) t h with
  | Some (doc0, h') => exists g', root_schema_for (info items) (json_schema (info items) n) t g = Some (transformed sa xa doc0, g')
                        /\ g_defs g' = g_defs h'
  | None => root_schema_for (info items) (json_schema (info items) n) t g = None
  end.
Proof.
  intros HA HM HT H. unfold root_schema_for.
  assert (EU : uid_of (info items) g t = uid_of (info items) h t) by (eapply sim_uid; [exact HA|reflexivity|exact H]).
  rewrite EU, (si_roots _ _ _ _ _ _ H).
  assert (HS : sim_res sa sb xa xb
     (json_schema_internal (json_schema (info items) n) t (uid_of (info items) h t) (with_roots (uid_of (info items) h t :: g_roots h) g))
     (json_schema_internal (json_schema (info items) n) t (uid_of (info items) h t) (with_roots (uid_of (info items) h t :: g_roots h) h))).
  { apply sim_internal; [|now apply sim_with_roots].
    apply (sim_json_schema sa sb xa xb HA (info items) (info items)); auto. intros u. cbn [info t_body]. apply al_body. }
  unfold sim_res in HS.
  destruct (json_schema_internal _ _ _ (with_roots _ g)) as [[s g1]|], (json_schema_internal _ _ _ (with_roots _ h)) as [[s' h1]|]; try contradiction; [|reflexivity].
  destruct HS as [<- HS]. destruct (si_set _ _ _ _ _ _ HS) as [E1 E2]. destruct (si_tst _ _ _ _ _ _ HS) as [E3 E4].
  unfold apply_transforms. rewrite E1, E2, HT, E3, (si_defs _ _ _ _ _ _ HS). cbn [fold_left].
  assert (ER : root_object (info items) t sa s = root_object (info items) t sb s) by (unfold root_object; now rewrite HM).
  destruct HA as (P1 & _). rewrite ER, P1. unfold transformed.
  destruct (fold_left _ (s_transforms sa) _) as [d x] eqn:EF. cbn [fst]. eexists. split; [reflexivity|]. cbn. now rewrite (si_defs _ _ _ _ _ _ HS).
Qed.

(** ** Well-formed documents have the shapes that C33 and C34 ask for *)
Section Shape.
Variable K : list string.
Notation wf := (wellformed K).

Lemma kw_unused_inv (W : json -> Prop) k x : In k ["if"; "then"; "else"; "contains"; "propertyNames"; "additionalItems"; "dependentSchemas"; "nullable"] -> keyword W k x -> False.
Proof.
  intros HI H. assert (HV : In k vocabulary).
  { cbn [In] in HI. repeat (destruct HI as [<-|HI]; [apply existsb_In; vm_compute; reflexivity|]). destruct HI. }
  assert (HN : note k x -> False).
  { intros HN. destruct HN as [k s HX|k b HX|x|l|k x HX]; [..|now apply HX].
    - clear HV. cbn [In] in HX. destruct HX as [<-|[<-|[<-|[]]]]; kdiff.
    - clear HV. cbn [In] in HX. destruct HX as [<-|[<-|[<-|[]]]]; kdiff.
    - clear HV. kdiff.
    - clear HV. kdiff. }
  destruct H; try (now apply HN);
    repeat match goal with HX : In _ [_] |- _ => cbn [In] in HX | HX : In ?k (_ :: _ :: _) |- _ => cbn [In] in HX end;
    repeat match goal with HX : _ \/ _ |- _ => destruct HX as [HX|HX] end; subst; try contradiction; try discriminate.
Qed.

Lemma absent_unused m k : (forall k x, In (k, x) m -> keyword wf k x /\ ~ In k K) ->
  In k ["if"; "then"; "else"; "contains"; "propertyNames"; "additionalItems"; "dependentSchemas"; "nullable"] -> mget k m = None.
Proof.
  intros H HI. destruct (mget k m) as [x|] eqn:E; [|reflexivity]. exfalso. apply mget_In in E. apply (kw_unused_inv wf k x HI). now apply H.
Qed.
Lemma absent_banned m k : (forall k x, In (k, x) m -> keyword wf k x /\ ~ In k K) -> In k K -> mget k m = None.
Proof. intros H HI. destruct (mget k m) as [x|] eqn:E; [|reflexivity]. exfalso. apply mget_In in E. now apply (proj2 (H k x E)). Qed.

Lemma wf_direct m x : wf (JObj m) -> direct_sub m x -> wf x.
Proof.
  intros H HX. inversion H as [|m' _ HE _]; subst. destruct HX as [k x HK HI Hs|k l x HK HI HL Hs|k p n x HK HI HL Hs]; destruct (HE _ _ HI) as [HW _].
  - unfold kw_one in HK. cbn [In] in HK.
    assert (HC : In k ["not"; "items"; "additionalProperties"; "unevaluatedProperties"]
      \/ In k ["if"; "then"; "else"; "contains"; "propertyNames"; "additionalItems"; "dependentSchemas"; "nullable"]) by (cbn [In]; tauto).
    destruct HC as [HC|HC]; [now apply (kw_one_inv wf k)|now elim (kw_unused_inv wf k x HC)].
  - unfold kw_list in HK. cbn [In] in HK.
    assert (HC : In k ["allOf"; "anyOf"; "oneOf"; "prefixItems"] \/ k = "items") by (cbn [In]; intuition auto).
    destruct HC as [HC| ->]; [apply (kw_list_inv wf k) in HW as (l' & [= <-] & _ & HW); auto|].
    apply (kw_one_inv wf) in HW; [|listed]. inversion HW.
  - apply (kw_named_inv wf k) in HW as (p' & [= <-] & HW); [eauto|exact HK].
Qed.

Lemma wf_everywhere (P : map_t -> Prop) : (forall m, wf (JObj m) -> P m) -> forall s, wf s -> everywhere P s.
Proof.
  intros HP s HS. apply everywhere_nested. intros m HN. apply HP.
  assert (HX : forall x, nested s x -> wf x) by (induction 1; [exact HS|eapply wf_direct; eauto]). auto.
Qed.

Lemma wf_prefix_ok m : wf (JObj m) -> prefix_ok m.
Proof.
  intros H. inversion H as [|m' _ HE _]; subst. split; [|split].
  - destruct (mget "prefixItems" m) as [x|] eqn:E; [|exact I]. apply mget_In, HE in E as [E _]. apply (kw_list_inv wf) in E as (l & -> & _); [exact I|listed].
  - destruct (mget "items" m) as [x|] eqn:E; [|exact I]. apply mget_In, HE in E as [E _]. apply (kw_one_inv wf) in E; [|listed]. destruct E; exact I.
  - apply absent_unused; [exact HE|listed].
Qed.
Lemma wf_ref_ok m : wf (JObj m) -> ref_ok m.
Proof.
  intros H. inversion H as [|m' _ HE _]; subst. unfold ref_ok. destruct (mget "$ref" m) as [x|] eqn:E; [|exact I]. apply mget_In, HE in E as [E _].
  assert (HX : exists r, x = JStr r) by (apply (kw_text_inv wf "$ref"); [listed|exact E]). destruct HX as [r ->].
  destruct (mget "allOf" m) as [y|] eqn:E2; [|exact I]. apply mget_In, HE in E2 as [E2 _]. apply (kw_list_inv wf) in E2 as (l & -> & _); [exact I|listed].
Qed.
Hypothesis HU : In ue K.
Lemma wf_no_uneval m : wf (JObj m) -> no_uneval m.
Proof. intros H. inversion H as [|m' _ HE _]; subst. now apply absent_banned. Qed.
Lemma wf_no_hidden m : wf (JObj m) -> no_hidden m.
Proof.
  intros H. split; [|pose proof (wf_no_uneval m H) as HX; unfold no_uneval in HX; now rewrite HX].
  inversion H as [|m' _ HE _]; subst. apply absent_unused; [exact HE|listed].
Qed.
Lemma wf_shape07 s : wf s -> everywhere (fun m => shape07 m /\ no_uneval m) s.
Proof. apply wf_everywhere. intros m H. split; [split; [|split]|]; [now apply wf_ref_ok|now apply wf_prefix_ok|now apply wf_no_hidden|now apply wf_no_uneval]. Qed.
Lemma wf_shape2019 s : wf s -> everywhere (fun m => prefix_ok m /\ no_hidden m) s.
Proof. apply wf_everywhere. intros m H. split; [now apply wf_prefix_ok|now apply wf_no_hidden]. Qed.

Hypothesis HPr : In "prefixItems" K.
Hypothesis HPa : In "patternProperties" K.
Lemma wf_only_null m : wf (JObj m) -> only_null_type m -> mget "const" m = None /\ mget "enum" m = None.
Proof.
  intros H HO. inversion H as [|m' _ HE HC]; subst. apply (co_null _ HC). unfold only_null_type in HO.
  destruct (mget "type" m) as [[| | |t|l|]|] eqn:E; try contradiction; [left; congruence|].
  apply mget_In, HE in E as [E _]. apply (kw_type_inv wf) in E as [(t & E & _)|(ts & E & NE & ND & _)]; [discriminate|]. injection E as ->.
  destruct ts as [|t0 ts]; [congruence|]. right. assert (H0 : t0 = "null") by (specialize (HO (JStr t0) (or_introl eq_refl)); congruence). subst t0.
  destruct ts as [|t1 ts]; [reflexivity|]. exfalso. specialize (HO (JStr t1) (or_intror (or_introl eq_refl))). injection HO as ->.
  inversion ND as [|? ? HX _]. apply HX. now left.
Qed.
Lemma wf_shape_oas s : wf s -> everywhere (fun m => shape_oas m /\ no_uneval m) s.
Proof.
  apply wf_everywhere. intros m H. pose proof (wf_only_null m H) as HO. pose proof H as H'. inversion H' as [|m' _ HE HC]; subst.
  split; [|now apply wf_no_uneval]. unfold shape_oas. split; [now apply wf_ref_ok|]. split; [|split; [now apply wf_no_hidden|split; [|split; [|split]]]].
  - split; [now apply absent_banned|]. apply wf_prefix_ok in H as (_ & H & _). exact H.
  - split; [apply absent_unused; [exact HE|listed]|]. split; [|intros _ HX; now apply HO].
    destruct (mget "type" m) as [[| | | |l|]|] eqn:E; try exact I. apply mget_In, HE in E as [E _].
    apply (kw_type_inv wf) in E as [(t & E & _)|(ts & E & _)]; [discriminate|]. injection E as ->. intros x Hx. apply in_map_iff in Hx as (t & <- & _). reflexivity.
  - unfold const_ok. destruct (co_one _ HC); [congruence|auto].
  - intros HX. now apply HO.
  - intros k Hk. cbn [In] in Hk. destruct Hk as [<-|Hk]; [now apply absent_banned|]. apply absent_unused; [exact HE|]. cbn [In]. intuition auto.
Qed.
End Shape.

(** ** References *)
(** As [resolves] (Sound.v), for a validator of dialect [d] *)
Definition resolves_as (d : dialect) (E : env) (path : string) (doc : json) : Prop :=
  forall r s v,
    (r = "" \/ exists n, plain_name n /\
      (r = definitions_path_stripped path ++ String "/" (encode_ref_name n)
       \/ r = definitions_path_stripped path ++ String "/" n))%string ->
    s_pointer doc (String "#" r) = Some s -> ok (e_ref E (String "#" r) v) = valid d E s v.

(** A path of plain text to the key [dk] *)
Record simple_path (dk path : string) : Prop := {
  sp_good : good_path path;
  sp_text : utf8_valid (definitions_path_stripped path) = true;
  sp_pct : no_pct (definitions_path_stripped path) = true;
  sp_tok : path_tokens path = [dk] }.

Lemma pointer_definition dk path m n r x : simple_path dk path -> plain_name n ->
  (r = definitions_path_stripped path ++ String "/" (encode_ref_name n) \/ r = definitions_path_stripped path ++ String "/" n)%string ->
  (forall y, mget dk m = Some y -> is_obj y = true) ->
  s_pointer (JObj m) (String "#" r) = Some x <-> definition dk (JObj m) n x.
Proof.
  intros [HG HT HP HK] HN HR HO.
  assert (HE : effective_pointer (String "#" r) = Some (definitions_path_stripped path ++ String "/" (ptr_escape n))%string).
  { destruct HR as [->| ->]; [|now apply raw_pointer].
    change (String "#" (definitions_path_stripped path ++ String "/" (encode_ref_name n))) with (ref_string path n).
    rewrite effective_ref_string; auto; [|apply HN]. destruct HN as [_ HN]. destruct (plain_all _ HN) as (H1 & _). now rewrite lossy_id. }
  unfold s_pointer. rewrite HE. unfold value_pointer.
  rewrite tokens_app_slash; [|apply no_slash_escape|destruct HG as (q & -> & _); eauto].
  fold (path_tokens path). rewrite HK, unescape_escape. cbn [app walk child]. unfold definition. split.
  - destruct (mget dk m) as [y|] eqn:ED; [|discriminate]. specialize (HO _ eq_refl). destruct y as [| | | | |p]; try discriminate HO. cbn [child].
    destruct (mget n p) as [z|] eqn:EN; [|discriminate]. intros [= <-]. exists m, p. auto.
  - intros (m' & p & [= <-] & -> & HX). cbn [child]. now rewrite HX.
Qed.

Lemma resolves_iff (d : dialect) E dk path T P m :
  In dk ["$defs"; "definitions"] -> simple_path dk path -> on_defs dk T ->
  (forall s, everywhere P s -> feq (eval d E (T s)) (eval D2020 E s)) ->
  everywhere P (JObj m) -> (forall y, mget dk m = Some y -> exists p, y = JObj p /\ forall n x, In (n, x) p -> is_schema x = true) ->
  resolves_as d E path (T (JObj m)) <-> resolves_as D2020 E path (JObj m).
Proof.
  intros Hk HP HT HS HE HD.
  assert (HO : forall y, mget dk m = Some y -> is_obj y = true) by (intros y Hy; destruct (HD y Hy) as (p & -> & _); reflexivity).
  destruct (proj2 HT m) as (m' & EM & HM').
  assert (HO' : forall y, mget dk m' = Some y -> is_obj y = true).
  { intros y Hy. rewrite HM' in Hy. destruct (mget dk m) as [z|]; [|discriminate]. destruct (HD z eq_refl) as (p & -> & _). injection Hy as <-. reflexivity. }
  assert (HV : forall n x, definition dk (JObj m) n x -> is_schema x = true /\ forall v, valid d E (T x) v = valid D2020 E x v).
  { intros n x (m1 & p & [= <-] & Hp & Hx). assert (Hs : is_schema x = true) by (destruct (HD _ Hp) as (p' & [= <-] & HX); eapply HX, mget_In, Hx).
    split; [exact Hs|]. intros v. apply (proj1 (HS x ltac:(apply everywhere_inv in HE as [_ HE]; apply HE; eapply (ds_map m dk); [in_cases Hk; in_names|apply mget_In; exact Hp|apply mget_In; exact Hx|exact Hs]) v)). }
  assert (HDf : forall n y, definition dk (T (JObj m)) n y <-> exists x, definition dk (JObj m) n x /\ y = T x).
  { intros n y. rewrite (on_defs_definition dk T (JObj m) n y HT eq_refl). split; intros (x & Hx & ->); exists x; (split; [exact Hx|]); unfold try_sub_p;
      destruct (HV n x Hx) as [-> _]; reflexivity. }
  rewrite EM in *. split; intros HR r s v [->|(n & HN & HC)] HPt.
  - injection HPt as <-. rewrite (HR "" (JObj m') v (or_introl eq_refl) eq_refl). rewrite <- EM. apply (proj1 (HS (JObj m) HE v)).
  - apply (proj1 (pointer_definition dk path m n r s HP HN HC HO)) in HPt. destruct (HV n s HPt) as [Hs HVs].
    rewrite <- HVs. apply HR; [right; eauto|]. apply (pointer_definition dk path m' n r (T s) HP HN HC HO'). apply HDf. eauto.
  - injection HPt as <-. rewrite (HR "" (JObj m) v (or_introl eq_refl) eq_refl). rewrite <- EM. symmetry. apply (proj1 (HS (JObj m) HE v)).
  - apply (proj1 (pointer_definition dk path m' n r s HP HN HC HO')) in HPt. apply HDf in HPt as (x & HX & ->). destruct (HV n x HX) as [Hs HVs].
    rewrite HVs. apply HR; [right; eauto|]. now apply (pointer_definition dk path m n r x HP HN HC HO).
Qed.
