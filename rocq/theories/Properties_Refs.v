(** Property C08, continued: references in documents which the ready-made transforms have rewritten. *)
From Coq Require Import String Ascii List ZArith Bool Lia.
From Verif Require Import Json JsonFacts Utf8 Encoding EncodingProofs Pointer PointerProofs SchemaApi Transform
  Generate GenerateSpec GenerateProofs GenerateRun GenerateTrace GenerateDoc TransformPipe Settings RefsTransformed
  Properties_Generate.
Import ListNotations.
Open Scope string_scope.
Open Scope list_scope.

(** Definitions under "$defs" or "definitions": the transforms reach them, so a reference leads to the
    definition as the same transforms leave it. [Ts] is any list of the transforms schemars ships, in
    any order; the settings of the older drafts are instances. Partial: names and paths as in
    [C08_references_resolve_partial]; transforms of the user's own are not covered. *)
Theorem C08_transformed_references_resolve_partial :
  forall Ty St (info : Ty -> tyinfo Ty St) Ts n p s st x g m t doc g' l dk,
  all_allowed no_edit info -> allowed no_set p ->
  run info n p (new_gen s st) = Some (x, g) ->
  root_schema_for info (json_schema info m) t g = Some (doc, g') ->
  g_log g' = l ++ g_log g ->
  s_transforms s = map pure Ts -> Forall builtin Ts ->
  In dk ["$defs"; "definitions"] -> path_tokens (s_path s) = [dk] -> good_path (s_path s) ->
  utf8_valid (definitions_path_stripped (s_path s)) = true ->
  no_pct (definitions_path_stripped (s_path s)) = true ->
  (forall u, utf8_valid (t_name (info u)) = true /\ sforall not_control (t_name (info u)) = true) ->
  (forall sch, produced info t sch g' -> room (path_tokens (s_path s)) (root_object info t s sch)) ->
  forall rs u r, In (EvRef rs u r) l -> r <> "#" ->
  exists d v, s_pointer doc r = Some (if is_schema d then all_of Ts d else d)
    /\ t_id (info v) = t_id (info u) /\ produced info v d g'.
Proof.
  intros Ty St info Ts n p s st x g m t doc g' l dk HA Hp HRun E EL HT HB Hdk HK HG HU HP HN HR rs u r Hin Hr.
  assert (HS : all_allowed no_set info).
  { intros y. assert (W : forall q : prog Ty St, allowed no_edit q -> allowed no_set q).
    { induction q; cbn; intuition. } apply W, HA. }
  pose proof (run_keeps info n p HS Hp _ _ _ HRun) as [F K].
  pose proof (K [] (inv_new info s st)) as I. pose proof (fr_set _ _ F) as ES. cbn in ES. rewrite <- ES in *.
  destruct (refs_resolve_raw info m t g doc g' l HA I E EL HG HU HP HN HR rs u r Hin Hr)
    as (m0 & st0 & q & nm & d & v & HD & HW & -> & HGN & HWd & Hid & Hpr).
  exists d, v. split; [|auto]. rewrite HD, HT, fold_pure, pointer_walk by auto. rewrite HK in *.
  apply (walk_on_defs dk (all_of Ts) m0 nm d); auto; [now apply on_defs_all|].
  intros y Hy. cbn in HW. rewrite Hy in HW. injection HW as ->. reflexivity.
Qed.
Print Assumptions C08_transformed_references_resolve_partial.

(** Definitions elsewhere, as in the OpenAPI settings ("/components/schemas"): the transforms do not
    reach them (C34), and a reference leads to the definition as it was produced. *)
Theorem C08_foreign_references_resolve_partial :
  forall Ty St (info : Ty -> tyinfo Ty St) Ts n p s st x g m t doc g' l k ks,
  all_allowed no_edit info -> allowed no_set p ->
  run info n p (new_gen s st) = Some (x, g) ->
  root_schema_for info (json_schema info m) t g = Some (doc, g') ->
  g_log g' = l ++ g_log g ->
  s_transforms s = map pure Ts -> Forall builtin Ts ->
  path_tokens (s_path s) = k :: ks -> foreign k -> good_path (s_path s) ->
  utf8_valid (definitions_path_stripped (s_path s)) = true ->
  no_pct (definitions_path_stripped (s_path s)) = true ->
  (forall u, utf8_valid (t_name (info u)) = true /\ sforall not_control (t_name (info u)) = true) ->
  (forall sch, produced info t sch g' -> room (path_tokens (s_path s)) (root_object info t s sch)) ->
  forall rs u r, In (EvRef rs u r) l -> r <> "#" ->
  exists d v, s_pointer doc r = Some d /\ t_id (info v) = t_id (info u) /\ produced info v d g'.
Proof.
  intros Ty St info Ts n p s st x g m t doc g' l k ks HA Hp HRun E EL HT HB HK HF HG HU HP HN HR rs u r Hin Hr.
  assert (HS : all_allowed no_set info).
  { intros y. assert (W : forall q : prog Ty St, allowed no_edit q -> allowed no_set q).
    { induction q; cbn; intuition. } apply W, HA. }
  pose proof (run_keeps info n p HS Hp _ _ _ HRun) as [F K].
  pose proof (K [] (inv_new info s st)) as I. pose proof (fr_set _ _ F) as ES. cbn in ES. rewrite <- ES in *.
  destruct (refs_resolve_raw info m t g doc g' l HA I E EL HG HU HP HN HR rs u r Hin Hr)
    as (m0 & st0 & q & nm & d & v & HD & HW & -> & HGN & HWd & Hid & Hpr).
  exists d, v. split; [|auto]. rewrite HD, HT, fold_pure, pointer_walk by auto. rewrite HK in *.
  apply walk_keeps; auto. now apply keeps_all.
Qed.
Print Assumptions C08_foreign_references_resolve_partial.

(** The ready-made settings are covered. *)
Example C08_ready_made {St} :
  (exists Ts, s_transforms (@draft07 St) = map pure Ts /\ Forall builtin Ts /\ path_tokens (s_path (@draft07 St)) = ["definitions"])
  /\ (exists Ts, s_transforms (@draft2019_09 St) = map pure Ts /\ Forall builtin Ts /\ path_tokens (s_path (@draft2019_09 St)) = ["$defs"])
  /\ (exists Ts, s_transforms (@openapi3 St) = map pure Ts /\ Forall builtin Ts
      /\ path_tokens (s_path (@openapi3 St)) = ["components"; "schemas"] /\ foreign "components").
Proof.
  split; [|split].
  - exists [replace_uneval; remove_ref_siblings; replace_prefix_items]. split; [reflexivity|]. split; [repeat constructor|reflexivity].
  - exists [replace_prefix_items]. split; [reflexivity|]. split; [repeat constructor|reflexivity].
  - exists [replace_uneval; replace_bool true; add_nullable true true; remove_ref_siblings; set_single_example; replace_const; replace_prefix_items].
    split; [reflexivity|]. split; [repeat constructor|]. split; [reflexivity|]. split; [reflexivity|]. cbn. intuition discriminate.
Qed.

(** A struct holding a pair, and its list of itself; the pair's schema uses "prefixItems". *)
Inductive duo := Held | Couple.
Definition duo_info (t : duo) : tyinfo duo unit :=
  match t with
  | Couple => TyInfo false "Couple" "m::Couple" (Ret (obj [("const", JNull); ("prefixItems", JArr [JBool true])]))
  | Held => TyInfo false "Held" "m::Held" (Sub Couple (fun a => Ret (obj [("properties", obj [("a", a)])])))
  end.

Example C08_transformed_example :
  exists doc l,
    run duo_info 1 (Ret (JBool true)) (new_gen (@draft07 unit) tt) = Some (JBool true, new_gen draft07 tt)
    /\ option_map (fun r => (fst r, g_log (snd r))) (root_schema_for duo_info (json_schema duo_info 5) Held (new_gen draft07 tt))
       = Some (doc, l ++ g_log (new_gen (Ty := duo) (@draft07 unit) tt))
    /\ In (EvRef [("m::Held", Deserialize)] Couple "#/definitions/Couple") l
    /\ s_pointer doc "#/definitions/Couple" = Some (obj [("const", JNull); ("items", JArr [JBool true])])
    /\ all_allowed no_edit duo_info
    /\ room (path_tokens "/definitions") (root_object duo_info Held draft07 (obj [("properties", JNull)])).
Proof.
  eexists _, _. split; [reflexivity|]. split; [cbn [g_log new_gen]; rewrite app_nil_r; vm_compute; reflexivity|]. split; [find_in|]. split; [vm_compute; reflexivity|].
  split; [intros []; cbn; auto|vm_compute; auto].
Qed.

(** The OpenAPI settings leave the definition's "const" and "prefixItems" in place. *)
Example C08_foreign_example :
  exists doc l,
    option_map (fun r => (fst r, g_log (snd r))) (root_schema_for duo_info (json_schema duo_info 5) Held (new_gen (@openapi3 unit) tt))
      = Some (doc, l ++ g_log (new_gen (Ty := duo) (@openapi3 unit) tt))
    /\ In (EvRef [("m::Held", Deserialize)] Couple "#/components/schemas/Couple") l
    /\ s_pointer doc "#/components/schemas/Couple" = Some (obj [("const", JNull); ("prefixItems", JArr [JBool true])])
    /\ room (path_tokens "/components/schemas") (root_object duo_info Held openapi3 (obj [("properties", JNull)])).
Proof.
  eexists _, _. split; [cbn [g_log new_gen]; rewrite app_nil_r; vm_compute; reflexivity|]. split; [find_in|]. split; [vm_compute; reflexivity|vm_compute; auto].
Qed.
