(** Property theorems C54, C55: transforms and the ready-made settings of other drafts. *)
From Coq Require Import String Ascii List ZArith Bool Lia.
From Verif Require Import ValidationAttrs Json JsonFacts Utf8 Encoding EncodingProofs Pointer PointerProofs SchemaApi Transform TransformSpec
  Validate ValidateFacts TransformSem TransformUneval TransformPipe TransformDoc ValidateRefs
  Private Generate GenerateDoc SerValue Types TypesShape Serde Properties_Types TypeId Derivation SoundBase SoundTypes SoundAdt Sound Properties_Sound
  Independent Settings Wellformed WellformedFacts WellformedTypes Properties_Wellformed Drafts.
Import ListNotations.
Open Scope string_scope.
Open Scope list_scope.

(** ** C54: transforms only see finished root documents *)
(** The same settings, without transforms; the same generator with those settings *)
Definition without_transforms {St} (s : settings St) : settings unit := Settings (s_path s) (s_meta s) [] (s_inline s) (s_contract s).
Definition plain_gen {St} (g : gen rty St) : gen rty unit :=
  Gen (without_transforms (g_set g)) tt (g_defs g) (g_pending g) (g_names g) (g_used g) (g_roots g) (g_log g).

(** Whatever has been done with the generator [g] before: [root_schema_for] returns what the same
    generator without transforms returns, with the transforms applied to it one after the other
    ([transformed], Drafts.v), and leaves the same (untransformed) definitions in the generator. *)
Theorem C54_transforms_last : forall X St (items : nat -> item X) (g : gen rty St) fuel t,
  match root_schema_for (info items) (json_schema (info items) fuel) t (plain_gen g) with
  | Some (doc0, g0) => exists g',
      root_schema_for (info items) (json_schema (info items) fuel) t g = Some (transformed (g_set g) (g_tst g) doc0, g')
      /\ g_defs g' = g_defs g0
  | None => root_schema_for (info items) (json_schema (info items) fuel) t g = None
  end.
Proof.
  intros X St items g fuel t. apply (root_independent items (g_set g) (without_transforms (g_set g)) (g_tst g) tt); try reflexivity.
  - split; [reflexivity|split; reflexivity].
  - constructor; try reflexivity; split; reflexivity.
Qed.
Print Assumptions C54_transforms_last.

(** Other calls are not influenced by transforms at all. *)
Theorem C54_subschemas : forall X St (items : nat -> item X) (g : gen rty St) fuel t,
  match subschema_for (info items) (json_schema (info items) fuel) t (plain_gen g), subschema_for (info items) (json_schema (info items) fuel) t g with
  | Some (s0, g0), Some (s, g') => s = s0 /\ g_defs g' = g_defs g0
  | None, None => True
  | _, _ => False
  end.
Proof.
  intros X St items g fuel t.
  assert (HA : agree (g_set g) (without_transforms (g_set g))) by (split; [reflexivity|split; reflexivity]).
  pose proof (sim_sub (g_set g) (without_transforms (g_set g)) (g_tst g) tt HA (info items) (info items)) as H.
  specialize (H (fun _ => eq_refl) (fun _ => eq_refl) (fun _ => eq_refl) (json_schema (info items) fuel) (json_schema (info items) fuel)).
  assert (HB : forall u, alike_prog (t_body (info (St := St) items u)) (t_body (info (St := unit) items u))) by (intros u; cbn [info t_body]; apply al_body).
  specialize (H (sim_json_schema _ _ _ _ HA (info items) (info items) (fun _ => eq_refl) (fun _ => eq_refl) (fun _ => eq_refl) HB fuel) t g (plain_gen g)).
  assert (HS : sim (g_set g) (without_transforms (g_set g)) (g_tst g) tt g (plain_gen g)) by (constructor; try reflexivity; split; reflexivity).
  specialize (H HS). unfold sim_res in H.
  destruct (subschema_for _ _ t g) as [[s g']|], (subschema_for _ _ t (plain_gen g)) as [[s0 g0]|]; try contradiction; [|exact I].
  destruct H as [-> H]. split; [reflexivity|]. apply (si_defs _ _ _ _ _ _ H).
Qed.
Print Assumptions C54_subschemas.

(** A stateful transform that numbers the documents: the first one gets 0. *)
Definition counting : settings nat :=
  with_transform (fun s n => (insert "x-number" (JNum (NInt (Z.of_nat n))) s, S n)) (for_serialize draft2020_12).
Example C54_example :
  exists doc0 g0 g', root_schema_for (info ex_prog) (json_schema (info ex_prog) 20) (TAdt 2 [] []) (plain_gen (new_gen counting 0)) = Some (doc0, g0)
  /\ root_schema_for (info ex_prog) (json_schema (info ex_prog) 20) (TAdt 2 [] []) (new_gen counting 0) = Some (insert "x-number" (JNum (NInt 0)) doc0, g')
  /\ g_tst g' = 1 /\ s_get "oneOf" doc0 <> None.
Proof. eexists _, _, _. split; [vm_compute; reflexivity|]. split; [vm_compute; reflexivity|]. split; [reflexivity|]. vm_compute. discriminate. Qed.

(** ** C55: the documents for draft-07 and 2019-09 *)
Definition new_document {X St} (items : nat -> item X) (s : settings St) (st : St) (fuel : nat) (t : rty) (doc : json) : Prop :=
  exists g', root_schema_for (info items) (json_schema (info items) fuel) t (new_gen s st) = Some (doc, g').

Lemma root_set {X St} (items : nat -> item X) (s : settings St) st fuel t doc g' :
  root_schema_for (info items) (json_schema (info items) fuel) t (new_gen s st) = Some (doc, g') -> g_set g' = s.
Proof.
  unfold root_schema_for. set (u := uid_of _ _ _). destruct (json_schema_internal _ _ _ _) as [[sch g2]|] eqn:EJ; [|discriminate].
  destruct (apply_transforms _ _) as [d2 g3] eqn:EA. intros [= <- <-]. unfold apply_transforms in EA.
  destruct (fold_left _ _ _) as [d3 st'] in EA. injection EA as <- <-. cbn [with_roots with_tst g_set].
  assert (HNm : named (with_roots (u :: g_roots (new_gen (Ty := rty) s st)) (new_gen (Ty := rty) s st))) by (intros v n H; discriminate).
  apply (st_set _ _ _ _ _ (internal_good (info items) (reach items t) _ _ _ _ _ _ u (json_schema_good _ _ fuel (reach_closed items t)) (reach_refl _ _) EJ eq_refl HNm)).
Qed.

Section Same.
Context {X St : Type}.
Variable items : nat -> item X.
Variables (s : settings St) (st : St) (fuel : nat) (t : rty) (doc : json) (dk : string).
Hypothesis Hdk : In dk ["$defs"; "definitions"].
Hypothesis HP : simple_path dk (s_path s).
Hypothesis HN : forall u, reach items t u -> noted [ue] items (s_contract s) u.
Hypothesis HR : new_document items s st fuel t doc.

Lemma plain_document : exists doc0, new_document items (without_transforms s) tt fuel t doc0 /\ doc = transformed s st doc0
  /\ wellformed [ue] doc0 /\ exists m, doc0 = JObj m /\ forall y, mget dk m = Some y -> exists p, y = JObj p /\ forall n x, In (n, x) p -> is_schema x = true.
Proof.
  destruct HR as [g' E]. pose proof (C54_transforms_last X St items (new_gen s st) fuel t) as H.
  change (plain_gen (new_gen s st)) with (new_gen (Ty := rty) (without_transforms s) tt) in H.
  destruct (root_schema_for _ _ t (new_gen (without_transforms s) tt)) as [[doc0 g0]|] eqn:E0; [|rewrite E in H; discriminate].
  destruct H as (g1 & H & _). rewrite E in H. injection H as -> _. exists doc0.
  assert (HW : wellformed [ue] doc0).
  { eapply (proj1 (C53_wellformed_partial unit X items [ue] (without_transforms s) tt fuel t doc0 g0
      ltac:(intros k [<-|[]]; unfold optional_keywords; listed) eq_refl _ HN E0)). Unshelve.
    split; [apply (sp_good _ _ HP)|]. exists dk, []. split; [apply (sp_tok _ _ HP)|]. left. split; [exact Hdk|reflexivity]. }
  split; [eexists; exact E0|]. split; [reflexivity|]. split; [exact HW|].
  assert (HO : exists m, doc0 = JObj m).
  { pose proof (root_set items _ _ _ _ _ _ E0) as HS. unfold root_schema_for in E0.
    destruct (json_schema_internal _ _ _ _) as [[sch g2]|] eqn:EJ; [|discriminate].
    destruct (apply_transforms _ _) as [d2 g3] eqn:EA. injection E0 as <- <-. unfold apply_transforms in EA.
    destruct (fold_left _ _ _) as [d3 st'] eqn:EF in EA. injection EA as <- <-. cbn [with_roots with_tst g_set] in HS.
    rewrite HS in EF. cbn in EF. injection EF as <- _. eexists. reflexivity. }
  destruct HO as [m ->]. exists m. split; [reflexivity|]. intros y Hy. inversion HW as [|m' _ HE _]; subst.
  apply mget_In, HE in Hy as [Hy _]. apply (kw_named_inv (wellformed [ue])) in Hy as (p & -> & HX); [|cbn [In] in Hdk |- *; tauto].
  exists p. split; [reflexivity|]. intros n x Hx. eapply wf_schema; eauto.
Qed.
End Same.

(** The draft-07 document accepts, for a draft-07 validator, the same JSON values as the document
    without transforms does for a 2020-12 validator; and the two validators agree on references. *)
Theorem C55_draft07_same_instances_partial : forall X St (items : nat -> item X) (s : settings St) st fuel t doc dk E,
  s_transforms s = s_transforms draft07 -> In dk ["$defs"; "definitions"] -> simple_path dk (s_path s) ->
  (forall u, reach items t u -> noted [ue] items (s_contract s) u) ->
  new_document items s st fuel t doc ->
  exists doc0, new_document items (without_transforms s) tt fuel t doc0
    /\ (resolves_as D07 E (s_path s) doc <-> resolves_as D2020 E (s_path s) doc0)
    /\ forall j, valid D07 E doc j = valid D2020 E doc0 j.
Proof.
  intros X St items s st fuel t doc dk E HT Hdk HP HN HR.
  destruct (plain_document items s st fuel t doc dk Hdk HP HN HR) as (doc0 & H0 & HD & HW & m & -> & HM).
  exists (JObj m). split; [exact H0|]. unfold transformed in HD. rewrite HT in HD. cbn in HD. change doc with doc in HD.
  assert (HD' : doc = draft07_transforms (JObj m)) by exact HD. clear HD; subst doc.
  pose proof (wf_shape07 [ue] (or_introl eq_refl) _ HW) as HE. split.
  - apply (resolves_iff D07 E dk (s_path s) draft07_transforms (fun m => shape07 m /\ no_uneval m)); auto.
    + now apply on_defs_draft07. + apply draft07_exact.
  - intros j. apply (proj1 (draft07_exact E (JObj m) HE j)).
Qed.
Print Assumptions C55_draft07_same_instances_partial.

Theorem C55_draft2019_same_instances_partial : forall X St (items : nat -> item X) (s : settings St) st fuel t doc dk E,
  s_transforms s = s_transforms draft2019_09 -> In dk ["$defs"; "definitions"] -> simple_path dk (s_path s) ->
  (forall u, reach items t u -> noted [ue] items (s_contract s) u) ->
  new_document items s st fuel t doc ->
  exists doc0, new_document items (without_transforms s) tt fuel t doc0
    /\ (resolves_as D2019 E (s_path s) doc <-> resolves_as D2020 E (s_path s) doc0)
    /\ forall j, valid D2019 E doc j = valid D2020 E doc0 j.
Proof.
  intros X St items s st fuel t doc dk E HT Hdk HP HN HR.
  destruct (plain_document items s st fuel t doc dk Hdk HP HN HR) as (doc0 & H0 & HD & HW & m & -> & HM).
  exists (JObj m). split; [exact H0|]. unfold transformed in HD. rewrite HT in HD. cbn in HD.
  assert (HD' : doc = draft2019_transforms (JObj m)) by exact HD. clear HD; subst doc.
  pose proof (wf_shape2019 [ue] (or_introl eq_refl) _ HW) as HE. split.
  - apply (resolves_iff D2019 E dk (s_path s) draft2019_transforms (fun m => prefix_ok m /\ no_hidden m)); auto.
    + now apply on_defs_draft2019. + apply draft2019_exact.
  - intros j. apply (proj1 (draft2019_exact E (JObj m) HE j)).
Qed.
Print Assumptions C55_draft2019_same_instances_partial.

(** A validator of dialect [d] for [doc] (compare [validator], Properties_Sound.v) *)
Record validator_as (d : dialect) (text_ok : checks) (path : string) (doc : json) (E : env) : Prop := {
  vd_formats : formats text_ok E;
  vd_patterns : decimal_patterns E;
  vd_refs : resolves_as d E path doc }.

(** So these documents accept what serde_json produces, with C42, C46, C47 and C52. *)
Definition values_accepted (d : dialect) (the_settings : settings unit) : Prop :=
  forall (items : nat -> item rval) text_ok (s : settings unit) st fuel t doc dk E v j,
  s_transforms s = s_transforms the_settings -> In dk ["$defs"; "definitions"] -> simple_path dk (s_path s) ->
  supported items dk (s_contract s) t -> (forall u, reach items t u -> noted [ue] items (s_contract s) u) ->
  new_document items s st fuel t doc -> validator_as d text_ok (s_path s) doc E ->
  value_json items text_ok true t v = Some j -> valid d E doc j = true.

Lemma dk_plain {St} dk (s : settings St) : In dk ["$defs"; "definitions"] -> simple_path dk (s_path s) -> plain_settings dk (s_contract s) (without_transforms s).
Proof.
  intros H [H1 H2 H3 H4]. constructor; try reflexivity; auto.
  - exists []. exact H4.
  - cbn [In] in H. destruct H as [<-|[<-|[]]]; (split; [|split; discriminate]); intros H;
      match type of H with In ?a _ => assert (HX : existsb (String.eqb a) used = true); [|vm_compute in HX; discriminate];
        apply existsb_exists; exists a; split; [exact H|apply String.eqb_refl] end.
Qed.

Theorem C55_draft07_values_partial : values_accepted D07 draft07.
Proof.
  intros items text_ok s st fuel t doc dk E v j HT Hdk HP HS HN HR [HF HD HV] HJ.
  destruct (C55_draft07_same_instances_partial rval unit items s st fuel t doc dk E HT Hdk HP HN HR) as (doc0 & H0 & HV' & HE).
  rewrite HE. apply HV' in HV. eapply (values_validate unit items text_ok dk (s_contract s) (without_transforms s) tt fuel t doc0); eauto.
  - now apply dk_plain.
  - now constructor.
Qed.
Print Assumptions C55_draft07_values_partial.
Theorem C55_draft2019_values_partial : values_accepted D2019 draft2019_09.
Proof.
  intros items text_ok s st fuel t doc dk E v j HT Hdk HP HS HN HR [HF HD HV] HJ.
  destruct (C55_draft2019_same_instances_partial rval unit items s st fuel t doc dk E HT Hdk HP HN HR) as (doc0 & H0 & HV' & HE).
  rewrite HE. apply HV' in HV. eapply (values_validate unit items text_ok dk (s_contract s) (without_transforms s) tt fuel t doc0); eauto.
  - now apply dk_plain.
  - now constructor.
Qed.
Print Assumptions C55_draft2019_values_partial.

(** OpenAPI 3.0: the definitions stay untransformed in the document (C34_components_refuted), and are
    transformed by [take_definitions(true)]. Each of them, and the document, keeps its meaning for every
    reading of the references, provided the types need neither tuples nor integer map keys. *)
Theorem C55_openapi3_same_instances_partial : forall X St (items : nat -> item X) (s : settings St) st fuel t doc g',
  s_transforms s = s_transforms openapi3 -> place (s_path s) ->
  (forall u, reach items t u -> noted optional_keywords items (s_contract s) u) ->
  root_schema_for (info items) (json_schema (info items) fuel) t (new_gen s st) = Some (doc, g') ->
  (exists doc0, new_document items (without_transforms s) tt fuel t doc0 /\ forall E j, valid OAS30 E doc j = valid D2020 E doc0 j)
  /\ forall n d, mget n (g_defs g') = Some d ->
      mget n (fst (take_definitions true g')) = Some (openapi3_transforms d)
      /\ forall E j, valid OAS30 E (openapi3_transforms d) j = valid D2020 E d j.
Proof.
  intros X St items s st fuel t doc g' HT HP HN HR. pose proof (C54_transforms_last X St items (new_gen s st) fuel t) as H.
  change (plain_gen (new_gen s st)) with (new_gen (Ty := rty) (without_transforms s) tt) in H.
  destruct (root_schema_for _ _ t (new_gen (without_transforms s) tt)) as [[doc0 g0]|] eqn:E0; [|rewrite HR in H; discriminate].
  destruct H as (g1 & H & HDf). rewrite HR in H. injection H as -> ->.
  destruct (C53_wellformed_partial unit X items optional_keywords (without_transforms s) tt fuel t doc0 g0 (fun k H => H) eq_refl HP HN E0) as [HW HWd].
  assert (HU : In ue optional_keywords) by (unfold optional_keywords; listed).
  assert (HX : forall x, wellformed optional_keywords x -> forall E j, valid OAS30 E (openapi3_transforms x) j = valid D2020 E x j).
  { intros x Hx E j. apply (proj1 (openapi3_exact E x (wf_shape_oas optional_keywords HU ltac:(unfold optional_keywords; listed) ltac:(unfold optional_keywords; listed) x Hx) j)). }
  split.
  - exists doc0. split; [eexists; exact E0|]. intros E j.
    assert (HD : transformed (g_set (new_gen (Ty := rty) s st)) (g_tst (new_gen (Ty := rty) s st)) doc0 = openapi3_transforms doc0) by (unfold transformed; cbn [new_gen g_set g_tst]; rewrite HT; reflexivity).
    etransitivity; [exact (f_equal (fun d => valid OAS30 E d j) HD)|]. now apply HX.
  - intros n d Hn. assert (HWn : wellformed optional_keywords d) by (rewrite HDf in Hn; eauto). split; [|now apply HX].
    apply root_set in HR. assert (HS : s_transforms (g_set (with_defs [] g1)) = s_transforms openapi3) by (cbn [with_defs g_set]; now rewrite HR).
    assert (HWA : forall m x, In (m, x) (g_defs g1) -> wellformed optional_keywords x -> is_schema x = true) by (intros; eapply wf_schema; eauto).
    unfold take_definitions. revert HS Hn. generalize (with_defs [] g1). clear - HWn.
    induction (g_defs g1) as [|[k v] l IH]; intros h HS Hn; [discriminate|]. cbn [transform_values].
    destruct (if is_schema v then apply_transforms v h else (v, h)) as [v' g2] eqn:EV.
    destruct (transform_values l g2) as [l' g3] eqn:EL. cbn [fst].
    cbn [mget] in Hn |- *. destruct (String.eqb n k) eqn:EK.
    + injection Hn as ->. rewrite (wf_schema _ _ HWn) in EV. unfold apply_transforms in EV. rewrite HS in EV. cbn in EV. now injection EV as <- _.
    + specialize (IH g2). rewrite EL in IH. apply IH; [|exact Hn]. destruct (is_schema v).
      * unfold apply_transforms in EV. destruct (fold_left _ _ _) in EV. injection EV as _ <-. exact HS.
      * injection EV as _ <-. exact HS.
Qed.
Print Assumptions C55_openapi3_same_instances_partial.

(** ** The ready-made settings meet the conditions *)
Lemma simple_defs : simple_path "$defs" "/$defs".
Proof. constructor; try reflexivity. exists "$defs". split; [reflexivity|discriminate]. Qed.
Lemma simple_definitions : simple_path "definitions" "/definitions".
Proof. constructor; try reflexivity. exists "definitions". split; [reflexivity|discriminate]. Qed.
Lemma components_place : place "/components/schemas".
Proof. split; [exists "components/schemas"; split; [reflexivity|discriminate]|]. exists "components", ["schemas"]. split; [reflexivity|]. right. intros H. assert (HX : existsb (String.eqb "components") vocabulary = true) by (apply existsb_exists; exists "components"; split; [exact H|reflexivity]). vm_compute in HX. discriminate. Qed.

(** A validator from a table of the schemas that can be referred to, as in Properties_Sound.v *)
Definition table_for (dk path : string) (doc : json) (table : list (string * json)) : bool :=
  ordered table && in_table table "#" doc
  && match doc with
     | JObj m => match mget dk m with
                 | Some (JObj defs) => forallb (fun nd => match nd with (n, d) =>
                      in_table table (String "#" (definitions_path_stripped path ++ String "/" n)) d
                      && in_table table (String "#" (definitions_path_stripped path ++ String "/" (encode_ref_name n))) d end) defs
                 | None => true
                 | _ => false
                 end
     | _ => false
     end.
Definition validator_for (d : dialect) (table : list (string * json)) : env := table_env d (e_rx decimal_env) (fun _ _ => true) table.
Lemma table_validator_as d dk path doc table :
  simple_path dk path -> table_for dk path doc table = true -> validator_as d all_texts path doc (validator_for d table).
Proof.
  intros HP. unfold table_for. rewrite !andb_true_iff. intros [[HO HD] HT]. apply in_table_get in HD.
  destruct doc as [| | | | |m]; try discriminate. constructor;
    [constructor; auto; [intros k s _; destruct k; try reflexivity; intros []; reflexivity|intros a j; apply unchecked_satisfies]|split; reflexivity|].
  assert (HE : forall r x v, mget r table = Some x -> ok (e_ref (validator_for d table) r v) = valid d (validator_for d table) x v).
  { intros r x v HM. apply (table_env_spec d (e_rx decimal_env) (fun _ _ => true) table HO r x v HM). }
  intros r x v [->|(n & HN & HR)] HX.
  - apply HE. cbn in HX. injection HX as <-. exact HD.
  - apply (pointer_definition dk path m n r x HP HN HR) in HX.
    2: { intros y Hy. rewrite Hy in HT. destruct y; try discriminate. reflexivity. }
    destruct HX as (m' & p & [= <-] & H1 & H2). rewrite H1 in HT. rewrite forallb_forall in HT. apply mget_In in H2.
    specialize (HT _ H2). cbn in HT. apply andb_true_iff in HT as [T1 T2].
    destruct HR as [->| ->]; apply HE, in_table_get; assumption.
Qed.

Definition document_of (s : settings unit) (t : rty) : json :=
  match root_schema_for (info ex_prog) (json_schema (info ex_prog) 20) t (new_gen s tt) with Some (d, _) => d | None => JNull end.
Definition table_for_doc (dk path : string) (doc : json) : list (string * json) :=
  ("#", doc) :: match s_get dk doc with
                | Some (JObj defs) => map (fun nd => match nd with (n, d) => (String "#" (definitions_path_stripped path ++ String "/" n), d) end) defs
                | _ => []
                end.
Definition ex_value : rval := RSeq [RInt 7; RSome (RSeq [RInt 8; RNone; RNone; RVariant 0 []]); RSome (RSeq [RInt 1; RInt 2]); RVariant 2 [RSeq [RInt 3; RInt 4]]].
Definition ex_json (kind : string) : json :=
  JObj [("end", JNum (NInt 2)); ("next", JObj [("next", JNull); ("shape", JObj [("kind", JStr "Empty")]); ("value", JNum (NInt 8))]);
        ("shape", JObj [("end", JNum (NInt 4)); ("kind", JStr kind); ("start", JNum (NInt 3))]); ("start", JNum (NInt 1)); ("value", JNum (NInt 7))].

Example C55_draft07_example :
  let s := for_serialize draft07 in
  let doc := document_of s (TAdt 0 [] []) in
  let E := validator_for D07 (table_for_doc "definitions" (s_path s) doc) in
  s_transforms s = s_transforms draft07 /\ simple_path "definitions" (s_path s)
  /\ supported ex_prog "definitions" (s_contract s) (TAdt 0 [] [])
  /\ (forall u, reach ex_prog (TAdt 0 [] []) u -> noted [ue] ex_prog (s_contract s) u)
  /\ new_document ex_prog s tt 20 (TAdt 0 [] []) doc /\ validator_as D07 all_texts (s_path s) doc E
  /\ value_json ex_prog all_texts true (TAdt 0 [] []) ex_value = Some (ex_json "Line")
  /\ valid D07 E doc (ex_json "Line") = true /\ valid D07 E doc (ex_json "Rhombus") = false.
Proof.
  cbv zeta. split; [reflexivity|]. split; [apply simple_definitions|]. split; [apply ex_supported_at; [discriminate|cbn; auto]|].
  split; [intros u; apply ex_noted; cbn; auto|]. split; [eexists; vm_compute; reflexivity|].
  split; [apply (table_validator_as _ "definitions"); [apply simple_definitions|vm_compute; reflexivity]|].
  split; [vm_compute; reflexivity|]. split; vm_compute; reflexivity.
Qed.
Example C55_draft2019_example :
  let s := for_serialize draft2019_09 in
  let doc := document_of s (TAdt 0 [] []) in
  let E := validator_for D2019 (table_for_doc "$defs" (s_path s) doc) in
  s_transforms s = s_transforms draft2019_09 /\ simple_path "$defs" (s_path s)
  /\ supported ex_prog "$defs" (s_contract s) (TAdt 0 [] [])
  /\ new_document ex_prog s tt 20 (TAdt 0 [] []) doc /\ validator_as D2019 all_texts (s_path s) doc E
  /\ valid D2019 E doc (ex_json "Line") = true /\ valid D2019 E doc (ex_json "Rhombus") = false.
Proof.
  cbv zeta. split; [reflexivity|]. split; [apply simple_defs|]. split; [apply ex_supported; cbn; auto|].
  split; [eexists; vm_compute; reflexivity|].
  split; [apply (table_validator_as _ "$defs"); [apply simple_defs|vm_compute; reflexivity]|].
  split; vm_compute; reflexivity.
Qed.
Example C55_openapi3_example :
  let s := for_serialize openapi3 in
  let doc := document_of s (TAdt 0 [] []) in
  let E := validator_for OAS30 [] in
  s_transforms s = s_transforms openapi3 /\ place (s_path s)
  /\ (forall u, reach ex_prog (TAdt 0 [] []) u -> noted optional_keywords ex_prog (s_contract s) u)
  /\ new_document ex_prog s tt 20 (TAdt 0 [] []) doc
  /\ s_get "components" doc <> None.
Proof.
  cbv zeta. split; [reflexivity|]. split; [apply components_place|]. split; [intros u; apply ex_noted; cbn; auto|].
  split; [eexists; vm_compute; reflexivity|]. vm_compute. discriminate.
Qed.
