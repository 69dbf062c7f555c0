(** Property theorem C69 for the definitions in the documents of the ready-made settings, with their transforms.

    [found], [rewritten], [holding_schemas]: DraftMeta.v; [preset], [configured]: Properties_Settings.v; [says]: Metadata.v;
    [definitions_key]: Properties_DraftMeta.v; [noted]: WellformedTypes.v *)
From Coq Require Import String Ascii List ZArith Bool Lia.
From Verif Require Import ValidationAttrs ValidationProofs Json JsonFacts Utf8 Encoding EncodingProofs SchemaApi Transform Validate ValidateFacts ValidateKw Pointer
  PointerProofs Private PrivateProps ShapeFacts PrivateFlatten Generate GenerateDoc SerValue Types TypesShape Serde SerdeFacts Derivation Properties_Root SoundBase SoundStruct SoundTypes SoundAdt
  TypeId Sound Required RequiredDerive RequiredSerde RequiredVariants Settings Drafts Properties_Drafts Properties_Settings Defaults Metadata DraftMeta
  Titles Properties_Sound Properties_Required Properties_Default Properties_Metadata Properties_RequiredOnce Properties_Titles WellformedTypes Properties_Wellformed Properties_DraftMeta.
Import ListNotations.
Open Scope string_scope.
Open Scope list_scope.

Lemma add_definitions_entry path dk o defs n d :
  good_path path -> path_tokens path = [dk] -> NoDup (map fst defs) -> mget n defs = Some d ->
  (forall y, mget dk (add_definitions path o defs) = Some y -> exists p, y = JObj p) ->
  exists ps, mget dk (add_definitions path o defs) = Some (JObj ps) /\ mget n ps = Some d.
Proof.
  intros HG HT ND HD HO. unfold add_definitions in *. destruct defs as [|kv defs]; [discriminate|]. set (ds := kv :: defs) in *.
  rewrite json_pointer_update_good, HT in * by exact HG. cbn [walk_create] in *. set (m1 := if mhas dk o then o else mset dk (JObj []) o) in *.
  assert (HH : exists y, mget dk m1 = Some y).
  { unfold m1. destruct (mhas dk o) eqn:E; [|rewrite mget_mset, String.eqb_refl; eauto]. unfold mhas in E. destruct (mget dk o); [eauto|discriminate]. }
  destruct HH as [y HY]. destruct (mget dk m1) as [y'|] eqn:EY; [|discriminate]. injection HY as ->.
  destruct y as [| | | | |sub]; cbn [fst] in *; try (destruct (HO _ EY) as [q HQ]; discriminate).
  exists (mappend sub ds). rewrite mget_mupd, String.eqb_refl, EY. split; [reflexivity|]. now rewrite mget_mappend_NoDup, HD.
Qed.

Lemma preset_definition X St (items : nat -> item X) p (s : settings St) st fuel t doc g' n d :
  configured p s -> p <> OpenApi3 -> (forall u, reach items t u -> noted [ue] items (s_contract s) u) ->
  root_schema_for (info items) (json_schema (info items) fuel) t (new_gen s st) = Some (doc, g') -> mget n (g_defs g') = Some d ->
  exists doc0 g0, root_schema_for (info items) (json_schema (info items) fuel) t (new_gen (without_transforms s) tt) = Some (doc0, g0)
    /\ mget n (g_defs g0) = Some d /\ found [Entry (definitions_key p) n] doc0 d
    /\ forall place sub, found place doc0 sub -> is_obj sub = true ->
         exists sub', found place doc sub' /\ forall k, ~ In k (rewritten ++ holding_schemas) -> s_get k sub' = s_get k sub.
Proof.
  intros HC HP HN HR HD. destruct (C69_presets _ _ _ _ _ _ _ _ _ _ HC HR) as (doc0 & g0 & H0 & HK). exists doc0, g0. split; [exact H0|].
  pose proof (C54_transforms_last X St items (new_gen s st) fuel t) as H. rewrite HR in H.
  change (plain_gen (new_gen s st)) with (new_gen (Ty := rty) (without_transforms s) tt) in H. rewrite H0 in H. destruct H as (g1 & [= _ <-] & HG).
  rewrite HG in HD. split; [exact HD|]. split; [|exact HK].
  assert (HPa : s_path s = s_path (settings_of (St := St) p)) by (clear - HC; induction HC; auto).
  assert (Hdk : In (definitions_key p) ["$defs"; "definitions"]) by (destruct p; cbn; tauto).
  assert (HG2 : good_path (s_path s)) by (rewrite HPa; destruct p; eexists; (split; [reflexivity|discriminate])).
  assert (HT : path_tokens (s_path s) = [definitions_key p]) by (rewrite HPa; destruct p; try reflexivity; congruence).
  assert (HSP : simple_path (definitions_key p) (s_path s)).
  { rewrite HPa. destruct p; try congruence; constructor; try reflexivity; eexists; (split; [reflexivity|discriminate]). }
  destruct (plain_document items s st fuel t doc _ Hdk HSP HN ltac:(eexists; exact HR)) as (doc1 & (g1' & H1) & _ & _ & m & -> & HM).
  rewrite H0 in H1. injection H1 as -> _.
  destruct (root_derives_defs (info items) (reach items t) fuel t (without_transforms s) tt (JObj m) g0 (reach_closed _ _) (reach_refl _ _) eq_refl H0)
    as (gf & sch & _ & _ & [= ->] & _ & _ & _ & _ & HSo & HE). rewrite <- HE in HD.
  destruct (add_definitions_entry (s_path (without_transforms s)) (definitions_key p) (root_object (info items) t (without_transforms s) sch) (g_defs gf) n d HG2 HT (sorted_NoDup _ HSo) HD) as (ps & A & B).
  { intros y Hy. destruct (HM y Hy) as (q & -> & _). eauto. }
  eapply FEntry; [|exact A|exact B|constructor]. cbn [In] in *. tauto.
Qed.

Lemma found_app p q a b c : found p a b -> found q b c -> found (p ++ q) a c.
Proof. induction 1; intros HQ; cbn; [exact HQ|eapply FEntry; eauto|eapply FNth; eauto]. Qed.

(** ** Theorem *)
(** With the ready-made settings for draft-07, 2019-09 and 2020-12, each definition of a document holds, under its name, what
    is attached to the type it is named after; its alternatives hold what is attached to the variants of that type, and its
    properties what is attached to the fields, except for the keywords that the transforms are about. What the attributes of
    the types reached add is only annotations ([noted]). *)
Theorem C69_definition_presets_partial : forall St (items : nat -> item rval) p (s : settings St) st fuel t doc g' n d,
  configured p s -> p <> OpenApi3 -> own_ids items t -> (forall u, reach items t u -> noted ["unevaluatedProperties"] items (s_contract s) u) ->
  root_schema_for (info items) (json_schema (info items) fuel) t (new_gen s st) = Some (doc, g') -> mget n (g_defs g') = Some d ->
  exists u, reach items t u /\ named_after items n u
    /\ forall i cs ts, unwrap u = TAdt i cs ts ->
         (forall k x, says (d_meta (it_decl (items i) cs ts)) k x -> ~ In k (rewritten ++ holding_schemas) ->
            exists d', found [Entry (definitions_key p) n] doc d' /\ s_get k d' = Some x)
         /\ (forall tg vs v, d_data (it_decl (items i) cs ts) = DEnum tg vs ->
              (forall k x, In (k, x) (d_meta (it_decl (items i) cs ts)) -> k <> "oneOf" /\ k <> "anyOf") ->
              In v vs -> v_takes_part (s_contract s) v -> v_meta v <> [] ->
              exists kw j e, In kw ["oneOf"; "anyOf"] /\ found [Entry (definitions_key p) n; Nth kw j] doc e
                /\ forall k x, says (v_meta v) k x -> ~ In k (rewritten ++ holding_schemas) -> s_get k e = Some x)
         /\ (forall def f, plain_structs items (s_contract s) (TAdt i cs ts) -> names_property items (s_contract s) (TAdt i cs ts) def f ->
              (exists k x, says (f_meta f) k x /\ ~ In k (["items"; "default"; "readOnly"; "writeOnly"] ++ validation_keywords)) \/ f_skip_de f = true \/ f_skip_ser f = true ->
              exists sub, found [Entry (definitions_key p) n; Entry "properties" (key (s_contract s) f)] doc sub
                /\ (forall k x, says (f_meta f) k x -> ~ In k (["items"; "default"; "readOnly"; "writeOnly"] ++ validation_keywords ++ rewritten ++ holding_schemas) -> s_get k sub = Some x)
                /\ (f_skip_de f = true -> s_get "readOnly" sub = Some (JBool true))
                /\ (f_skip_ser f = true -> s_get "writeOnly" sub = Some (JBool true))).
Proof.
  intros St items p s st fuel t doc g' n d HC HP HId HN HR HD.
  destruct (preset_definition _ _ _ _ _ _ _ _ _ _ _ _ HC HP HN HR HD) as (doc0 & g0 & H0 & HD0 & HF & HK).
  destruct (C69_definition_partial _ items _ (without_transforms s) tt fuel t doc0 g0 n d eq_refl eq_refl HId H0 HD0) as (u & Hu & HNm & HX).
  exists u. split; [exact Hu|]. split; [exact HNm|]. intros i cs ts HA. destruct (HX i cs ts HA) as (HTy & HV & HFi). split; [|split].
  - intros k x HS Hk. pose proof (HTy k x HS) as HG. destruct (HK _ _ HF (get_obj _ _ _ HG)) as (d' & H1 & H2). exists d'. split; [exact H1|]. now rewrite H2.
  - intros tg vs v HDt HM Hv HT HMv. destruct (HV tg vs v HDt HM Hv HT HMv) as (l & e & (m & -> & HAl) & He & HE). apply In_nth_error in He as [j He].
    assert (HO : is_obj e = true).
    { destruct (exists_last HMv) as (l1 & [k x] & HL). apply (get_obj k e x), HE. exists l1, []. split; [exact HL|intros []]. }
    assert (HKw : exists kw, In kw ["oneOf"; "anyOf"] /\ mget kw m = Some (JArr l)) by (destruct HAl as [HAl|HAl]; eexists; (split; [|exact HAl]); cbn; auto).
    destruct HKw as (kw & HI & HL).
    destruct (HK ([Entry (definitions_key p) n] ++ [Nth kw j]) e) as (e' & H1 & H2); [eapply found_app; [exact HF|eapply FNth; eauto; constructor]|exact HO|].
    exists kw, j, e'. split; [exact HI|]. split; [exact H1|]. intros k x HS Hk. rewrite H2 by exact Hk. auto.
  - intros def f HPl HNa HM. destruct (HFi def f HPl HNa) as (sub & (m & ps & -> & A & B) & H1 & H2 & H3).
    assert (HO : is_obj sub = true).
    { destruct HM as [(k & x & HS & Hk)|[HM|HM]]; [exact (get_obj _ _ _ (H1 k x HS Hk))|eapply get_obj, H2, HM|eapply get_obj, H3, HM]. }
    destruct (HK ([Entry (definitions_key p) n] ++ [Entry "properties" (key (s_contract s) f)]) sub) as (sub' & HF' & HE);
      [eapply found_app; [exact HF|eapply FEntry; eauto; [now left|constructor]]|exact HO|].
    exists sub'. split; [exact HF'|]. split; [|split].
    + intros k x HS Hk. rewrite HE; [apply H1; [exact HS|]|]; intros N; apply Hk; rewrite !in_app_iff in *; tauto.
    + intros H. rewrite HE; [now apply H2|]. intros N. apply (In_existsb "readOnly") in N. vm_compute in N. discriminate.
    + intros H. rewrite HE; [now apply H3|]. intros N. apply (In_existsb "writeOnly") in N. vm_compute in N. discriminate.
Qed.
Print Assumptions C69_definition_presets_partial.

(** ** Example *)
(** Option<Box<Node>> with the types of Properties_Sound.v: "Node" and "Shape" are definitions. *)
Example C69_definition_presets_example :
  let p := Draft07 in
  let t := TOption (TFwd (TAdt 0 [] [])) in
  let s := settings_of (St := unit) p in
  configured p s /\ p <> OpenApi3 /\ own_ids ex_prog t /\ (forall u, reach ex_prog t u -> noted ["unevaluatedProperties"] ex_prog (s_contract s) u)
  /\ exists doc g d, root_schema_for (info ex_prog) (json_schema (info ex_prog) 20) t (new_gen s tt) = Some (doc, g)
       /\ mget "Node" (g_defs g) = Some d
       /\ (exists d', found [Entry (definitions_key p) "Node"] doc d' /\ s_get "description" d' = Some (JStr "A node"))
       /\ exists e, found [Entry (definitions_key p) "Shape"; Nth "oneOf" 1] doc e /\ s_get "description" e = Some (JStr "Round").
Proof.
  cbv zeta. split; [constructor|]. split; [discriminate|]. split; [|split].
  - apply (reached_ids _ _ ex_types); [|check_ids]. intros u. apply reach_list; [cbn; auto 20|apply ex_closed].
  - intros u. apply ex_noted. cbn. auto 20.
  - (eexists _, _, _; split; [vm_compute; reflexivity|]; split; [reflexivity|]; split;
      (eexists; split; [eapply FEntry; [cbn; tauto|reflexivity|reflexivity|first [eapply FNth; [now left|reflexivity|reflexivity|constructor]|constructor]]|reflexivity])).
Qed.
