(** The helpers of Private.v keep schemas well-formed. *)
From Coq Require Import String Ascii List ZArith Bool Lia Permutation.
From Verif Require Import Json JsonFacts SchemaApi Transform Private Wellformed.
Import ListNotations.
Open Scope string_scope.
Open Scope list_scope.

Lemma mappend_In {A} (l : list (string * A)) kv : forall m, In kv (mappend m l) -> In kv l \/ In kv m.
Proof.
  unfold mappend. induction l as [|[k x] l IH]; intros m H; [now right|]. cbn [fold_left fst snd] in H. apply IH in H as [H|H]; [left; now right|].
  apply mset_In in H as [->|H]; [left; now left|now right].
Qed.
Lemma mk_In {A} (l : list (string * A)) kv : In kv (mk l) -> In kv l.
Proof. intros H. apply mappend_In in H as [H|[]]. exact H. Qed.
Lemma mupd_In {A} k (f : A -> A) m kv : In kv (mupd k f m) -> In kv m \/ exists x, In (k, x) m /\ kv = (k, f x).
Proof.
  induction m as [|[k' x] m IH]; cbn; [easy|]. destruct (String.eqb_spec k k') as [<-|N]; cbn.
  - intros [<-|H]; [right; exists x; auto|auto].
  - intros [<-|H]; [auto|]. apply IH in H as [H|(y & H & ->)]; [auto|right; exists y; auto].
Qed.
Lemma mset_In_only {A} k (x : A) m k' x' : sorted_keys (map fst m) = true -> In (k', x') (mset k x m) -> (k' = k /\ x' = x) \/ (k' <> k /\ In (k', x') m).
Proof.
  intros HS HI. destruct (String.eqb_spec k' k) as [->|N].
  - left. split; [reflexivity|]. assert (HD := sorted_NoDup _ (sorted_mset k x m HS)). pose proof (NoDup_mget _ _ _ HD HI) as H. rewrite mget_mset_eq in H. congruence.
  - right. apply mset_In in HI as [HI|HI]; [congruence|auto].
Qed.
Lemma mupd_keys {A} k (f : A -> A) m : map fst (mupd k f m) = map fst m.
Proof. induction m as [|[k' x] m IH]; cbn; [reflexivity|]. destruct (String.eqb k k'); cbn; congruence. Qed.
Lemma map_st_In {A St} (f : A -> St -> A * St) l y : forall st, In y (fst (map_st f l st)) -> exists x st', In x l /\ y = fst (f x st').
Proof.
  induction l as [|x l IH]; intros st; cbn [map_st]; [easy|]. destruct (f x st) as [z st1] eqn:E. destruct (map_st f l st1) as [zs st2] eqn:E2. cbn [fst].
  intros [<-|H]; [exists x, st; rewrite E; cbn; auto|]. specialize (IH st1). rewrite E2 in IH. destruct (IH H) as (w & st' & Hw & ->).
  exists w, st'. split; [now right|reflexivity].
Qed.
Lemma map_st_nil {A St} (f : A -> St -> A * St) l st : l <> [] -> fst (map_st f l st) <> [].
Proof. destruct l; [easy|]. intros _. cbn [map_st]. destruct (f a st) as [z st1]. now destruct (map_st f l st1). Qed.

Ltac listed := cbn [In]; tauto.
(** No two different literals are equal. *)
Ltac kdiff := match goal with H : In _ _ |- _ => exfalso; cbn [In] in H; repeat (destruct H as [H|H]); try discriminate H; exact H end.

(** ** Keywords *)
Lemma note_not k x : note k x -> In k ["$ref"; "$schema"; "format"; "allOf"; "anyOf"; "oneOf"; "prefixItems"; "properties"; "patternProperties"; "$defs"; "definitions"; "not"; "items";
  "additionalProperties"; "unevaluatedProperties"; "type"; "enum"; "const"; "required"; "if"; "then"; "else"] -> False.
Proof.
  destruct 1 as [k s H|k b H|x|l|k x H]; intros HI.
  - cbn [In] in H. destruct H as [<-|[<-|[<-|[]]]]; kdiff.
  - cbn [In] in H. destruct H as [<-|[<-|[<-|[]]]]; kdiff.
  - kdiff.
  - kdiff.
  - apply H. unfold vocabulary. cbn [In] in HI |- *. tauto.
Qed.

Section Kw.
Variables W : json -> Prop.
Lemma keyword_mono (W' : json -> Prop) k x : (forall s, W s -> W' s) -> keyword W k x -> keyword W' k x.
Proof.
  intros H. destruct 1; [apply kw_schema|apply kw_schemas|eapply kw_named|apply kw_type|apply kw_types|apply kw_enum|apply kw_const|apply kw_required
    |apply kw_number|apply kw_count|apply kw_unique|apply kw_text|apply kw_note]; eauto.
Qed.

Ltac kw_inv := match goal with H : keyword _ _ _ |- _ => inversion H; subst; clear H end;
  try (match goal with H : In _ _ |- _ => cbn [In] in H; repeat (destruct H as [H|H]); try discriminate H; contradiction end);
  try (match goal with H : note _ _ |- _ => exfalso; apply (note_not _ _ H); listed end).

Lemma kw_type_inv x : keyword W "type" x -> (exists t, x = JStr t /\ In t simple_types) \/
  exists ts, x = JArr (map JStr ts) /\ ts <> [] /\ NoDup ts /\ forall t, In t ts -> In t simple_types.
Proof. intros H. kw_inv; eauto 10. Qed.
Lemma kw_list_inv k x : In k ["allOf"; "anyOf"; "oneOf"; "prefixItems"] -> keyword W k x -> exists l, x = JArr l /\ l <> [] /\ forall s, In s l -> W s.
Proof. intros HI H. cbn [In] in HI. destruct HI as [<-|[<-|[<-|[<-|[]]]]]; kw_inv; eauto 10. Qed.
Lemma kw_named_inv k x : In k ["properties"; "patternProperties"; "$defs"; "definitions"] -> keyword W k x -> exists p, x = JObj p /\ forall n s, In (n, s) p -> W s.
Proof. intros HI H. cbn [In] in HI. destruct HI as [<-|[<-|[<-|[<-|[]]]]]; kw_inv; eauto 10. Qed.
Lemma kw_one_inv k x : In k ["not"; "items"; "additionalProperties"; "unevaluatedProperties"] -> keyword W k x -> W x.
Proof. intros HI H. cbn [In] in HI. destruct HI as [<-|[<-|[<-|[<-|[]]]]]; kw_inv; eauto 10. Qed.
Lemma kw_text_inv k x : In k ["$ref"; "$schema"; "format"] -> keyword W k x -> exists s, x = JStr s.
Proof. intros HI H. cbn [In] in HI. destruct HI as [<-|[<-|[<-|[]]]]; kw_inv; eauto. Qed.
Lemma kw_enum_inv x : keyword W "enum" x -> exists l, x = JArr l /\ l <> [].
Proof. intros H. kw_inv; eauto. Qed.
Lemma kw_required_inv x : keyword W "required" x -> exists l, x = JArr (map JStr l).
Proof. intros H. kw_inv; eauto. Qed.
Lemma kw_if_inv k x : In k ["if"; "then"; "else"] -> keyword W k x -> False.
Proof. intros HI H. cbn [In] in HI. destruct HI as [<-|[<-|[<-|[]]]]; kw_inv. Qed.
End Kw.

Section Wf.
Variable K : list string.
Notation ue := "unevaluatedProperties".
Definition optional_keywords : list string := [ue; "prefixItems"; "patternProperties"].
Hypothesis HK : forall k, In k K -> In k optional_keywords.

Notation wf := (wellformed K).
Definition entry (k : string) (x : json) : Prop := keyword wf k x /\ ~ In k K.
Definition each (m : map_t) : Prop := forall k x, In (k, x) m -> entry k x.
Definition entries (m : map_t) : Prop := sorted_keys (map fst m) = true /\ each m.

Lemma wf_iff m : wf (JObj m) <-> entries m /\ coherent m.
Proof. split; [intros H; inversion H; subst; split; auto; now split|intros [[H1 H2] H3]; now constructor]. Qed.
Lemma wf_schema s : wf s -> is_schema s = true.
Proof. now destruct 1. Qed.

Lemma free k : ~ In k optional_keywords -> ~ In k K.
Proof. intros H HI. now apply H, HK. Qed.
Ltac nk := apply free; let H := fresh in intros H; unfold optional_keywords in H; cbn [In] in H; repeat (destruct H as [H|H]); try discriminate H; exact H.

Lemma note_entry k x : note k x -> entry k x.
Proof.
  intros H. split; [now apply kw_note|]. apply free. intros HI. apply (note_not _ _ H). unfold optional_keywords in HI. cbn [In] in HI |- *. tauto.
Qed.

Lemma entries_nil : entries [].
Proof. split; [reflexivity|]. intros k x []. Qed.
Lemma entries_one k x : entry k x -> entries [(k, x)].
Proof. intros H. split; [reflexivity|]. intros k' x' [[= <- <-]|[]]. exact H. Qed.
Definition entries_but (k0 : string) (m : map_t) : Prop := sorted_keys (map fst m) = true /\ forall k x, In (k, x) m -> k <> k0 -> entry k x.
Lemma entries_fix k x m : entry k x -> entries_but k m -> entries (mset k x m).
Proof. intros H [HS HM]. split; [now apply sorted_mset|]. intros k' x' HI. apply mset_In_only in HI as [[-> ->]|[HN HI]]; auto. Qed.
Lemma entries_fixed k m : entries_but k m -> (forall x, mget k m = Some x -> entry k x) -> entries m.
Proof.
  intros [HS HM] H. split; [exact HS|]. intros k' x HI. destruct (String.eqb_spec k' k) as [->|N]; [|auto]. apply H. apply NoDup_mget; [|exact HI]. now apply sorted_NoDup.
Qed.
Lemma entries_weak k m : entries m -> entries_but k m.
Proof. intros [H1 H2]. split; [exact H1|]. intros k' x HI _. auto. Qed.
Lemma entries_mset k x m : entry k x -> entries m -> entries (mset k x m).
Proof. intros H HM. apply entries_fix; [exact H|now apply entries_weak]. Qed.
Lemma entries_mdel k m : entries m -> entries (mdel k m).
Proof. intros [HS H]. split; [now apply sorted_mdel|]. intros k' x HI. apply mdel_In in HI. auto. Qed.
Lemma entries_mk l : each l -> entries (mk l).
Proof. intros H. split; [apply sorted_mk|]. intros k x HI. apply mk_In in HI. auto. Qed.
Lemma entries_get k x m : entries m -> mget k m = Some x -> entry k x.
Proof. intros [_ H] HG. apply H, mget_In, HG. Qed.
Lemma entries_mupd k f m : entries m -> (forall x, entry k x -> entry k (f x)) -> entries (mupd k f m).
Proof. intros [HS H] HF. split; [now rewrite mupd_keys|]. intros k' x HI. apply mupd_In in HI as [HI|(y & HI & [= -> ->])]; auto. Qed.
Lemma entries_update k d f m : entry k d -> (forall x, entry k x -> entry k (f x)) -> entries m -> entries (entry_update k d f m).
Proof. intros HD HF HM. unfold entry_update. apply entries_mupd; auto. destruct (mhas k m); auto. now apply entries_mset. Qed.

(** Keys that do not matter for [coherent] *)
Definition inert (k : string) : Prop := k <> "type" /\ k <> "enum" /\ k <> "const".
Lemma coherent_ext m m' : mget "type" m' = mget "type" m -> mget "enum" m' = mget "enum" m -> mget "const" m' = mget "const" m -> coherent m -> coherent m'.
Proof. intros H1 H2 H3 [C1 C2 C3]. constructor; rewrite ?H1, ?H2, ?H3; auto. Qed.
Lemma coherent_mset k x m : inert k -> coherent m -> coherent (mset k x m).
Proof. intros (H1 & H2 & H3). apply coherent_ext; rewrite mget_mset_ne; auto. Qed.
Lemma coherent_mdel k m : k <> "type" -> coherent m -> coherent (mdel k m).
Proof.
  intros H [C1 C2 C3]. assert (D : forall k', mget k' (mdel k m) = None \/ mget k' (mdel k m) = mget k' m).
  { intros k'. rewrite mget_mdel. destruct (String.eqb k' k); auto. }
  assert (T : mget "type" (mdel k m) = mget "type" m) by (rewrite mget_mdel; destruct (String.eqb_spec "type" k); congruence).
  constructor; rewrite ?T.
  - intros HT l. destruct (D "enum") as [->| ->]; [discriminate|]. now apply C1.
  - destruct (D "enum") as [->| ->]; [auto|]. destruct (D "const") as [->| ->]; auto.
  - intros HT. destruct (C3 HT). destruct (D "enum") as [->| ->], (D "const") as [->| ->]; auto.
Qed.
Lemma coherent_free m : mget "const" m = None -> mget "enum" m = None -> coherent m.
Proof. intros H1 H2. constructor; auto. rewrite H2. discriminate. Qed.
Lemma coherent_typed m t : mget "type" m = Some (JStr t) -> t <> "string" -> t <> "null" -> mget "const" m = None -> coherent m.
Proof. intros HT H1 H2 HC. constructor; rewrite ?HT; auto; [intros [= ->]; congruence|]. intros [[= ->]|[=]]; congruence. Qed.

(** [s] is well-formed and has no "const" of its own. *)
Definition top (s : json) : Prop := wf s /\ s_get "const" s = None.
Lemma top_obj m : top (JObj m) <-> entries m /\ coherent m /\ mget "const" m = None.
Proof. unfold top. rewrite wf_iff. cbn. tauto. Qed.
Lemma top_ensure s : top s -> top (JObj (ensure_obj s)).
Proof.
  intros [H HC]. destruct H as [[]|m H0 H1 H2]; cbn.
  - rewrite top_obj. repeat split; try (now intros); auto using entries_nil.
  - rewrite top_obj. split; [|split; [now apply coherent_free|reflexivity]]. apply entries_one. split; [|nk].
    apply kw_schema; [listed|]. apply wf_iff. split; [apply entries_nil|now apply coherent_free].
  - rewrite top_obj. split; [now split|auto].
Qed.
Lemma top_insert k x s : entry k x -> inert k -> top s -> top (insert k x s).
Proof.
  intros HE HI HS. apply top_ensure, top_obj in HS as (H1 & H2 & H3). unfold insert. apply top_obj. split; [now apply entries_mset|].
  split; [now apply coherent_mset|]. destruct HI as (_ & _ & HN). now rewrite mget_mset_ne by congruence.
Qed.
Lemma wf_ensure s : wf s -> wf (JObj (ensure_obj s)).
Proof.
  destruct 1 as [[]|m H0 H1 H2]; cbn; apply wf_iff.
  - split; [apply entries_nil|now apply coherent_free].
  - split; [|now apply coherent_free]. apply entries_one. split; [|nk].
    apply kw_schema; [listed|]. apply wf_iff. split; [apply entries_nil|now apply coherent_free].
  - split; [now split|assumption].
Qed.
Lemma wf_insert k x s : entry k x -> inert k -> wf s -> wf (insert k x s).
Proof. intros HE HI HS. apply wf_ensure, wf_iff in HS as [H1 H2]. apply wf_iff. split; [now apply entries_mset|now apply coherent_mset]. Qed.
Lemma note_inert k x : note k x -> inert k.
Proof. intros H. repeat split; intros ->; apply (note_not _ _ H); listed. Qed.

Lemma entry_list k l : In k ["allOf"; "anyOf"; "oneOf"] -> l <> [] -> (forall s, In s l -> wf s) -> entry k (JArr l).
Proof. intros HI HL HW. split; [apply kw_schemas; auto; cbn [In] in HI |- *; tauto|]. cbn [In] in HI. destruct HI as [<-|[<-|[<-|[]]]]; nk. Qed.
Lemma entry_props p : (forall n s, In (n, s) p -> wf s) -> entry "properties" (JObj p).
Proof. intros H. split; [apply kw_named; auto; listed|nk]. Qed.
Lemma entry_required l : entry "required" (JArr (map JStr l)).
Proof. split; [apply kw_required|nk]. Qed.
Lemma entry_type t : In t simple_types -> entry "type" (JStr t).
Proof. intros H. split; [now apply kw_type|nk]. Qed.
Lemma entry_ap s : wf s -> entry "additionalProperties" s.
Proof. intros H. split; [apply kw_schema; auto; listed|nk]. Qed.

(** ** allow_null *)
Lemma type_null_entry x : entry "type" x ->
  match x with
  | JArr l => existsb (json_eqb (JStr "null")) l = false -> entry "type" (JArr (l ++ [JStr "null"]))
  | JStr t => t <> "null" -> entry "type" (JArr [JStr t; JStr "null"])
  | _ => True
  end.
Proof.
  intros [H _]. apply kw_type_inv in H as [(t & -> & HT)|(ts & -> & HN & HD & HT)].
  - intros Hn. split; [|nk]. apply (kw_types _ [t; "null"]); [easy|repeat constructor; cbn; intuition congruence|].
    intros t' [<-|[<-|[]]]; auto. unfold simple_types. listed.
  - intros HE. split; [|nk]. change [JStr "null"] with (map JStr ["null"]). rewrite <- map_app. apply kw_types.
    + now destruct ts.
    + apply (Permutation_NoDup (Permutation_cons_append ts "null")). constructor; [|exact HD].
      intros HI. rewrite (proj2 (existsb_exists _ _)) in HE; [discriminate|]. exists (JStr "null"). split; [now apply in_map|apply json_eqb_refl].
    + intros t Ht. apply in_app_iff in Ht as [Ht|[<-|[]]]; auto. unfold simple_types. listed.
Qed.

Lemma unit_wf : top unit_schema.
Proof.
  change unit_schema with (JObj [("type", JStr "null")]). apply top_obj. split; [|split; [now apply coherent_free|reflexivity]].
  apply entries_one. apply entry_type. unfold simple_types. listed.
Qed.

Lemma allow_null_top s : top s -> top (allow_null s).
Proof.
  intros HS. destruct s as [|b| | | |m]; try (destruct HS as [HS _]; inversion HS; fail).
  - destruct b; [exact HS|apply unit_wf].
  - pose proof HS as HS0. apply top_obj in HS as (HE & HC & HN). unfold allow_null.
    destruct (Nat.eqb (List.length m) 1 && _); [exact HS0|]. destruct (contains_immediate_subschema m).
    { change (obj [("anyOf", JArr [JObj m; unit_schema])]) with (JObj [("anyOf", JArr [JObj m; unit_schema])]).
      apply top_obj. split; [|split; [now apply coherent_free|reflexivity]]. apply entries_one. apply entry_list; [listed|easy|].
      intros s [<-|[<-|[]]]; [apply HS0|apply unit_wf]. }
    set (m1 := match mget "type" m with Some (JArr l) => _ | _ => _ end).
    assert (H1 : entries m1 /\ mget "const" m1 = None /\ mget "enum" m1 = mget "enum" m /\ (mget "enum" m <> None -> mget "type" m1 <> Some (JStr "string") /\ ~ (mget "type" m1 = Some (JStr "null") \/ mget "type" m1 = Some (JArr [JStr "null"])))).
    { assert (SAME : (mget "enum" m <> None -> mget "type" m <> Some (JStr "string")) ->
        entries m /\ mget "const" m = None /\ mget "enum" m = mget "enum" m /\ (mget "enum" m <> None -> mget "type" m <> Some (JStr "string") /\ ~ (mget "type" m = Some (JStr "null") \/ mget "type" m = Some (JArr [JStr "null"])))).
      { intros HX. refine (conj HE (conj HN (conj eq_refl (fun HY => conj (HX HY) _)))). intros HZ. apply (co_null _ HC) in HZ as [_ HZ]. congruence. }
      unfold m1. destruct (mget "type" m) as [x|] eqn:ET; [|rewrite ?ET; apply SAME; discriminate].
      pose proof (entries_get _ _ _ HE ET) as HT. pose proof (type_null_entry _ HT) as HT'.
      destruct x as [| | |t|l|]; try (rewrite ?ET; apply SAME; discriminate).
      - destruct (String.eqb_spec t "null") as [->|Hn]; [rewrite ?ET; apply SAME; discriminate|].
        split; [apply entries_mset; auto|]. rewrite !mget_mset_ne by discriminate. rewrite mget_mset_eq.
        refine (conj HN (conj eq_refl (fun _ => conj _ _))); [discriminate|]. intros [HX|HX]; discriminate.
      - destruct (existsb _ l); [rewrite ?ET; apply SAME; discriminate|].
        split; [apply entries_mset; auto|]. rewrite !mget_mset_ne by discriminate. rewrite mget_mset_eq.
        refine (conj HN (conj eq_refl (fun _ => conj _ _))); [discriminate|]. intros [HX|HX]; [discriminate|]. injection HX as HX.
        destruct HT as [HT _]. apply kw_type_inv in HT as [(t & HT & _)|(ts & HT & NE & _)]; [discriminate|]. injection HT as ->. destruct ts as [|t0 [|]]; [congruence|discriminate|discriminate]. }
    clearbody m1. destruct H1 as (E1 & E2 & E3 & E4). rewrite E2, E3.
    destruct (mget "enum" m) as [x|] eqn:EE.
    2:{ apply top_obj. split; [exact E1|]. split; [now apply coherent_free|exact E2]. }
    pose proof (entries_get _ _ _ HE EE) as [HX _]. apply kw_enum_inv in HX as (l & -> & HL). destruct (E4 ltac:(discriminate)) as [T1 T2].
    destruct (existsb _ l).
    { apply top_obj. split; [exact E1|]. split; [constructor; [congruence|auto|congruence]|exact E2]. }
    apply top_obj. split; [|split].
    + apply entries_mset; [|exact E1]. split; [apply kw_enum; now destruct l|nk].
    + constructor; rewrite ?(mget_mset_ne "type"), ?(mget_mset_ne "const") by discriminate; [congruence|auto|congruence].
    + now rewrite mget_mset_ne by discriminate.
Qed.

(** ** flatten *)
Definition no_immediate (m : map_t) : Prop := contains_immediate_subschema m = false.
(** What is merged into the schema of a struct *)
Definition part (m : map_t) : Prop := entries m /\ mget "const" m = None /\ (In ue K -> no_immediate m).

Lemma no_immediate_iff m : no_immediate m <-> forall k, In k immediate_keys -> mget k m = None.
Proof.
  unfold no_immediate, contains_immediate_subschema. split.
  - intros H k Hk. destruct (mget k m) eqn:E; [|reflexivity]. rewrite (proj2 (existsb_exists _ _)) in H; [discriminate|].
    exists k. split; [exact Hk|]. unfold mhas. now rewrite E.
  - intros H. destruct (existsb _ _) eqn:E; [|reflexivity]. apply existsb_exists in E as (k & Hk & HM). unfold mhas in HM. now rewrite (H k Hk) in HM.
Qed.

Lemma normalise_get m1 m2 k : k <> "additionalProperties" -> k <> ue -> mget k (normalise m1 m2) = mget k m1.
Proof.
  intros H1 H2. unfold normalise. destruct (mget "additionalProperties" m1); [|reflexivity]. destruct (_ || _); [|reflexivity].
  rewrite mget_mset_ne by auto. rewrite mget_mdel. destruct (String.eqb_spec k "additionalProperties"); congruence.
Qed.
Lemma normalise_part m1 m2 : part m1 -> entries m2 -> (In ue K -> no_immediate m2) -> part (normalise m1 m2).
Proof.
  intros (H1 & H2 & H3) HE HI. split; [|split].
  - unfold normalise. destruct (mget "additionalProperties" m1) as [ap|] eqn:EA; [|exact H1]. destruct (_ || _) eqn:EO; [|exact H1].
    assert (HU : ~ In ue K).
    { intros HU. apply orb_true_iff in EO as [EO|EO].
      - apply mhas_true in EO as (x & EO). destruct (entries_get _ _ _ HE EO) as [_ HX]. auto.
      - rewrite (HI HU) in EO. discriminate. }
    apply entries_mset; [|now apply entries_mdel]. split; [|exact HU]. apply kw_schema; [listed|].
    eapply kw_one_inv; [|apply (entries_get _ _ _ H1 EA)]. listed.
  - rewrite normalise_get; auto; discriminate.
  - intros HU. apply no_immediate_iff. intros k Hk. rewrite normalise_get.
    + now apply (proj1 (no_immediate_iff m1) (H3 HU)).
    + intros ->. unfold immediate_keys in Hk. kdiff.
    + intros ->. unfold immediate_keys in Hk. kdiff.
Qed.

Lemma flatten_plain_entries m k x : entries m -> entry k x -> entries (flatten_plain m k x).
Proof.
  intros HM HX. unfold flatten_plain. destruct (mget k m) as [v1|] eqn:EG; [|now apply entries_mset].
  pose proof (entries_get _ _ _ HM EG) as H1. destruct (mem k ["required"; "allOf"]) eqn:E1.
  - destruct v1 as [| | | |a1|]; auto. destruct x as [| | | |a2|]; auto. apply entries_mset; [|exact HM].
    unfold mem in E1. cbn [existsb] in E1. destruct (String.eqb_spec k "required") as [->|N1].
    + destruct H1 as [H1 _], HX as [H2 _]. apply kw_required_inv in H1 as (l1 & [= ->]), H2 as (l2 & [= ->]). rewrite <- map_app. apply entry_required.
    + destruct (String.eqb_spec k "allOf") as [->|N2]; [|discriminate]. destruct H1 as [H1 _], HX as [H2 _].
      apply kw_list_inv in H1 as (l1 & [= <-] & L1 & L2); [|listed]. apply kw_list_inv in H2 as (l2 & [= <-] & M1 & M2); [|listed].
      apply entry_list; [listed|now destruct a1|]. intros s Hs. apply in_app_iff in Hs as [Hs|Hs]; auto.
  - destruct (mem k ["properties"; "patternProperties"]) eqn:E2; [|exact HM]. destruct v1 as [| | | | |o1]; auto. destruct x as [| | | | |o2]; auto.
    apply entries_mset; [|exact HM]. unfold mem in E2. cbn [existsb] in E2.
    assert (HP : In k ["properties"; "patternProperties"; "$defs"; "definitions"]).
    { destruct (String.eqb_spec k "properties") as [->|N1]; [listed|]. destruct (String.eqb_spec k "patternProperties") as [->|N2]; [listed|discriminate]. }
    destruct H1 as [H1 H1'], HX as [H2 _]. apply kw_named_inv in H1 as (p1 & [= <-] & L1); [|exact HP]. apply kw_named_inv in H2 as (p2 & [= <-] & L2); [|exact HP].
    split; [|exact H1']. apply kw_named; [exact HP|]. intros n s Hs. apply mappend_In in Hs as [Hs|Hs]; eauto.
Qed.
Lemma flatten_property_entries m k x : entries m -> entry k x -> entries (flatten_property m k x).
Proof.
  intros HM HX. unfold flatten_property. destruct (mem k ["oneOf"; "anyOf"]) eqn:E; [|now apply flatten_plain_entries].
  destruct (mget k m) as [v1|] eqn:EG; [|now apply entries_mset].
  pose proof (entries_get _ _ _ HM EG) as H1.
  assert (HS : forall v, entry k v -> wf (JObj [(k, v)])).
  { intros v Hv. apply wf_iff. split; [now apply entries_one|].
    unfold mem in E. cbn [existsb] in E. apply coherent_free; cbn; destruct (String.eqb_spec k "oneOf") as [->|N1]; try reflexivity;
      destruct (String.eqb_spec k "anyOf") as [->|N2]; try reflexivity; discriminate. }
  apply flatten_plain_entries; [now apply entries_mdel|]. apply entry_list; [listed|easy|]. intros s [<-|[<-|[]]]; auto.
Qed.
Lemma flatten_plain_keeps m k x k' : mget k' m <> None -> ~ In k' ["required"; "allOf"; "properties"; "patternProperties"] -> mget k' (flatten_plain m k x) = mget k' m.
Proof.
  intros HG HN. unfold flatten_plain. destruct (mget k m) as [v1|] eqn:EG.
  - destruct (mem k ["required"; "allOf"]) eqn:E1.
    + destruct v1; auto. destruct x; auto. apply mget_mset_ne. intros ->. apply HN. unfold mem in E1. cbn [existsb] in E1. cbn [In].
      destruct (String.eqb_spec k "required"); auto. destruct (String.eqb_spec k "allOf"); auto; discriminate.
    + destruct (mem k ["properties"; "patternProperties"]) eqn:E2; auto. destruct v1; auto. destruct x; auto. apply mget_mset_ne. intros ->. apply HN.
      unfold mem in E2. cbn [existsb] in E2. cbn [In].
      destruct (String.eqb_spec k "properties"); auto. destruct (String.eqb_spec k "patternProperties"); auto; discriminate.
  - apply mget_mset_ne. congruence.
Qed.
Lemma flatten_plain_other m k x k' : k' <> k -> mget k' (flatten_plain m k x) = mget k' m.
Proof.
  intros HN. unfold flatten_plain. destruct (mget k m) as [v1|]; [|now apply mget_mset_ne].
  destruct (mem k ["required"; "allOf"]); [destruct v1; auto; destruct x; auto; now apply mget_mset_ne|].
  destruct (mem k ["properties"; "patternProperties"]); auto. destruct v1; auto; destruct x; auto; now apply mget_mset_ne.
Qed.
Lemma flatten_property_keeps m k x k' : mget k' m <> None -> ~ In k' ["required"; "allOf"; "properties"; "patternProperties"; "oneOf"; "anyOf"] ->
  mget k' (flatten_property m k x) = mget k' m.
Proof.
  intros HG HN. assert (HN' : ~ In k' ["required"; "allOf"; "properties"; "patternProperties"]) by (cbn [In] in *; tauto).
  unfold flatten_property. destruct (mem k ["oneOf"; "anyOf"]) eqn:E; [|now apply flatten_plain_keeps].
  assert (HD : k' <> k).
  { intros ->. apply HN. unfold mem in E. cbn [existsb] in E. cbn [In]. destruct (String.eqb_spec k "oneOf"); [auto 10|]. destruct (String.eqb_spec k "anyOf"); [auto 10|discriminate]. }
  destruct (mget k m) as [v1|]; [|now apply mget_mset_ne].
  rewrite flatten_plain_other by (intros ->; apply HN; listed). rewrite mget_mdel. destruct (String.eqb_spec k' k); congruence.
Qed.
Lemma flatten_property_other m k x k' : k' <> k -> k' <> "allOf" -> mget k' (flatten_property m k x) = mget k' m.
Proof.
  intros HN HA. unfold flatten_property. destruct (mem k ["oneOf"; "anyOf"]); [|now apply flatten_plain_other].
  destruct (mget k m); [|now apply mget_mset_ne]. rewrite flatten_plain_other by auto. rewrite mget_mdel. destruct (String.eqb_spec k' k); congruence.
Qed.
Lemma flatten_property_immediate m k x : no_immediate m -> ~ In k immediate_keys -> no_immediate (flatten_property m k x).
Proof.
  rewrite !no_immediate_iff. intros H HN k' Hk'. specialize (H k' Hk').
  assert (HD : k' <> k) by (intros ->; auto).
  unfold flatten_property. destruct (mem k ["oneOf"; "anyOf"]) eqn:E.
  - exfalso. apply HN. unfold mem in E. cbn [existsb] in E. unfold immediate_keys. cbn [In].
    destruct (String.eqb_spec k "oneOf"); [auto 10|]. destruct (String.eqb_spec k "anyOf"); [auto 10|discriminate].
  - now rewrite flatten_plain_other.
Qed.

(** The schema of a struct: an object *)
Definition struct_part (m : map_t) : Prop := part m /\ mget "type" m = Some (JStr "object").
Lemma struct_part_top m : struct_part m -> top (JObj m).
Proof. intros ((H1 & H2 & _) & H3). apply top_obj. split; [exact H1|]. split; [|exact H2]. eapply coherent_typed; eauto; discriminate. Qed.

Lemma fold_flatten_part m2 : part m2 -> forall m1, part m1 ->
  part (fold_left (fun m kv => flatten_property m (fst kv) (snd kv)) m2 m1) /\
  (mget "type" m1 <> None -> mget "type" (fold_left (fun m kv => flatten_property m (fst kv) (snd kv)) m2 m1) = mget "type" m1).
Proof.
  intros (E2 & C2 & I2).
  assert (C2' : forall x, ~ In ("const", x) m2).
  { intros x Hx. apply mget_None in C2. apply C2. apply in_map_iff. now exists ("const", x). }
  assert (I2' : In ue K -> forall k x, In (k, x) m2 -> ~ In k immediate_keys).
  { intros HU k x Hx Hk. pose proof (proj1 (no_immediate_iff m2) (I2 HU) k Hk) as HN. apply mget_None in HN. apply HN. apply in_map_iff. now exists (k, x). }
  destruct E2 as [_ E2]. clear C2 I2. induction m2 as [|[k x] m2 IH]; intros m1 H1; cbn [fold_left fst snd]; [auto|].
  assert (HP : part (flatten_property m1 k x)).
  { destruct H1 as (E1 & C1 & I1). split; [|split].
    - apply flatten_property_entries; [exact E1|]. apply E2. now left.
    - rewrite flatten_property_other; auto; [|discriminate]. intros <-. apply (C2' x). now left.
    - intros HU. apply flatten_property_immediate; [auto|]. apply (I2' HU k x). now left. }
  destruct (IH) with (m1 := flatten_property m1 k x) as [IH1 IH2]; auto.
  - intros k' x' Hx. apply E2. now right.
  - intros x' Hx. apply (C2' x'). now right.
  - intros HU k' x' Hx. apply (I2' HU k' x'). now right.
  - split; [exact IH1|]. intros HT. assert (HX : mget "type" (flatten_property m1 k x) = mget "type" m1).
    { apply flatten_property_keeps; [exact HT|]. intros HI. kdiff. }
    rewrite IH2; [exact HX|]. now rewrite HX.
Qed.
Lemma flatten_objects m1 m2 : part m1 -> part m2 -> exists m, flatten (JObj m1) (JObj m2) = JObj m /\ part m /\ (mget "type" m1 <> None -> mget "type" m = mget "type" m1).
Proof.
  intros H1 H2. cbn [flatten ensure_obj ensure_object]. eexists. split; [reflexivity|].
  assert (N1 : part (normalise m1 m2)) by (apply normalise_part; auto; apply H2).
  assert (N2 : part (normalise m2 (normalise m1 m2))) by (apply normalise_part; auto; apply N1).
  destruct (fold_flatten_part _ N2 _ N1) as [F1 F2]. split; [exact F1|].
  rewrite normalise_get in F2 by discriminate. exact F2.
Qed.
Lemma flatten_struct m s : struct_part m -> (exists b, s = JBool b) \/ (exists m2, s = JObj m2 /\ part m2) -> exists m', flatten (JObj m) s = JObj m' /\ struct_part m'.
Proof.
  intros [HP HT] [(b & ->)|(m2 & -> & H2)].
  - destruct b; cbn [flatten]; [|exists m; split; [reflexivity|now split]].
    destruct (negb _ && negb _); [|exists m; split; [reflexivity|now split]]. eexists. split; [reflexivity|].
    destruct HP as (E & C & I). destruct (contains_immediate_subschema m) eqn:EI.
    + assert (HU : ~ In ue K). { intros HU. specialize (I HU). unfold no_immediate in I. congruence. }
      split; [|rewrite mget_mset_ne by discriminate; exact HT]. split; [|split].
      * apply entries_mset; [|exact E]. split; [apply kw_schema; [listed|constructor]|exact HU].
      * rewrite mget_mset_ne by discriminate. exact C.
      * intros HU'. contradiction.
    + split; [|rewrite mget_mset_ne by discriminate; exact HT]. split; [|split].
      * apply entries_mset; [|exact E]. apply entry_ap. constructor.
      * rewrite mget_mset_ne by discriminate. exact C.
      * intros HU'. apply no_immediate_iff. intros k Hk. rewrite mget_mset_ne; [now apply (proj1 (no_immediate_iff m) EI)|].
        intros ->. unfold immediate_keys in Hk. kdiff.
  - destruct (flatten_objects m m2 HP H2) as (m' & -> & H' & HT'). exists m'. split; [reflexivity|]. split; [exact H'|].
    rewrite HT', HT; [reflexivity|now rewrite HT].
Qed.

(** ** Transforming immediate subschemas *)
Lemma sub_value_entry {St} (t : tr St) k x st : (forall s st, wf s -> wf (fst (t s st))) -> entry k x -> entry k (fst (sub_value t (immediate_shape k) x st)).
Proof.
  intros HT [HX HN]. split; [|exact HN]. unfold immediate_shape.
  destruct (mem k ["if"; "then"; "else"]) eqn:E1.
  { exfalso. apply (kw_if_inv wf k x); [|exact HX]. unfold mem in E1. cbn [existsb] in E1. cbn [In].
    destruct (String.eqb_spec k "if"); [auto|]. destruct (String.eqb_spec k "then"); [auto|]. destruct (String.eqb_spec k "else"); [auto|discriminate]. }
  destruct (mem k ["allOf"; "anyOf"; "oneOf"]) eqn:E2; [|exact HX].
  assert (HI : In k ["allOf"; "anyOf"; "oneOf"; "prefixItems"]).
  { unfold mem in E2. cbn [existsb] in E2. cbn [In]. destruct (String.eqb_spec k "allOf"); [auto|]. destruct (String.eqb_spec k "anyOf"); [auto|].
    destruct (String.eqb_spec k "oneOf"); [auto|discriminate]. }
  apply kw_list_inv in HX as (l & -> & HL & HW); [|exact HI]. cbn [sub_value try_arr].
  pose proof (map_st_nil (try_sub t) l st HL) as HL'. pose proof (fun y => map_st_In (try_sub t) l y st) as HM.
  destruct (map_st (try_sub t) l st) as [l' st'] eqn:EM. cbn [fst] in *. apply kw_schemas; [exact HI|exact HL'|].
  intros y Hy. apply HM in Hy as (z & st'' & Hz & ->). unfold try_sub. rewrite (wf_schema z) by auto. apply HT, HW, Hz.
Qed.
Lemma immediate_get {St} (t : tr St) m k : ~ In k ["if"; "then"; "else"; "allOf"; "anyOf"; "oneOf"] -> forall st,
  mget k (fst (map_st (fun kv st => let '(x, st1) := sub_value t (immediate_shape (fst kv)) (snd kv) st in ((fst kv, x), st1)) m st)) = mget k m.
Proof.
  intros HN. induction m as [|[k' x] m IH]; intros st; [reflexivity|]. cbn [map_st fst snd].
  destruct (sub_value t (immediate_shape k') x st) as [x' st1] eqn:EX. specialize (IH st1).
  destruct (map_st _ m st1) as [m' st2]. cbn [fst mget] in *. destruct (String.eqb_spec k k') as [<-|Nk]; [|exact IH].
  assert (HS : immediate_shape k = Other).
  { unfold immediate_shape, mem. cbn [existsb]. cbn [In] in HN. destruct (String.eqb_spec k "if"); [exfalso; auto|]. destruct (String.eqb_spec k "then"); [exfalso; auto 10|].
    destruct (String.eqb_spec k "else"); [exfalso; auto 10|]. cbn [orb]. destruct (String.eqb_spec k "allOf"); [exfalso; auto 10|]. destruct (String.eqb_spec k "anyOf"); [exfalso; auto 10|].
    destruct (String.eqb_spec k "oneOf"); [exfalso; auto 10|]. reflexivity. }
  rewrite HS in EX. cbn in EX. congruence.
Qed.
Lemma immediate_has {St} (t : tr St) m k : forall st,
  mhas k (fst (map_st (fun kv st => let '(x, st1) := sub_value t (immediate_shape (fst kv)) (snd kv) st in ((fst kv, x), st1)) m st)) = mhas k m.
Proof.
  unfold mhas. induction m as [|[k' x] m IH]; intros st; [reflexivity|]. cbn [map_st fst snd].
  destruct (sub_value t (immediate_shape k') x st) as [x' st1] eqn:EX. specialize (IH st1).
  destruct (map_st _ m st1) as [m' st2]. cbn [fst mget] in *. destruct (String.eqb k k'); [reflexivity|exact IH].
Qed.
Lemma map_st_keys {St} (t : tr St) m : forall st,
  map fst (fst (map_st (fun kv st => let '(x, st1) := sub_value t (immediate_shape (fst kv)) (snd kv) st in ((fst kv, x), st1)) m st)) = map fst m.
Proof.
  induction m as [|[k' x] m IH]; intros st; [reflexivity|]. cbn [map_st fst snd].
  destruct (sub_value t (immediate_shape k') x st) as [x' st1]. specialize (IH st1). destruct (map_st _ m st1) as [m' st2]. cbn [fst map] in *. now rewrite IH.
Qed.
(** What holds of a transformed object *)
Lemma immediate_obj {St} (t : tr St) m st : (forall s st, wf s -> wf (fst (t s st))) -> entries m ->
  exists m', fst (transform_immediate_subschemas_st t (JObj m) st) = JObj m' /\ entries m' /\
    (forall k, ~ In k ["if"; "then"; "else"; "allOf"; "anyOf"; "oneOf"] -> mget k m' = mget k m) /\ (forall k, mhas k m' = mhas k m).
Proof.
  intros HT HM. unfold transform_immediate_subschemas_st.
  set (f := fun (kv : string * json) st => let '(x, st1) := sub_value t (immediate_shape (fst kv)) (snd kv) st in ((fst kv, x), st1)).
  pose proof (fun y => map_st_In f m y st) as HI. pose proof (fun k HN => immediate_get t m k HN st) as HG. pose proof (fun k => immediate_has t m k st) as HH.
  pose proof (map_st_keys t m st) as HKY.
  fold f in HG, HH, HKY. destruct (map_st f m st) as [m' st'] eqn:EM. cbn [fst] in *. exists m'. split; [reflexivity|]. split; [|auto].
  split; [rewrite HKY; apply HM|]. intros k x Hx. apply HI in Hx as ([k0 x0] & st0 & H0 & E0). unfold f in E0. cbn [fst snd] in E0.
  pose proof (sub_value_entry t k0 x0 st0 HT (proj2 HM k0 x0 H0)) as HS. destruct (sub_value t (immediate_shape k0) x0 st0) as [x1 st1]. cbn [fst] in *.
  injection E0 as -> ->. exact HS.
Qed.
Lemma immediate_wf {St} (t : tr St) s st : (forall s st, wf s -> wf (fst (t s st))) -> wf s -> wf (fst (transform_immediate_subschemas_st t s st)).
Proof.
  intros HT HS. destruct HS as [b|m HM0 HM HC]; [constructor|]. destruct (immediate_obj t m st HT (conj HM0 HM)) as (m' & -> & HE & HG & _).
  apply wf_iff. split; [exact HE|]. apply (coherent_ext m); auto; apply HG; intros HI; kdiff.
Qed.

Lemma remove_false_obj k m : exists m', (if get_is_false k (JObj m) then fst (s_remove k (JObj m)) else JObj m) = JObj m' /\ (m' = m \/ m' = mdel k m).
Proof. destruct (get_is_false k (JObj m)); cbn; eauto. Qed.
Lemma allow_unknown_step n s d : allow_unknown_n (S n) s d =
  let s1 := if get_is_false "additionalProperties" s then fst (s_remove "additionalProperties" s) else s in
  let d1 := if get_is_false "additionalProperties" s then true else d in
  let s2 := if get_is_false ue s1 then fst (s_remove ue s1) else s1 in
  let d2 := if get_is_false ue s1 then true else d1 in
  transform_immediate_subschemas_st (allow_unknown_n n) s2 d2.
Proof.
  cbn [allow_unknown_n]. destruct (get_is_false "additionalProperties" s); cbv zeta.
  - destruct (get_is_false ue (fst (s_remove "additionalProperties" s))); reflexivity.
  - destruct (get_is_false ue s); reflexivity.
Qed.
Lemma allow_unknown_obj n m d : entries m -> (forall s st, wf s -> wf (fst (allow_unknown_n n s st))) -> exists m', fst (allow_unknown_n (S n) (JObj m) d) = JObj m' /\ entries m' /\
  (forall k, ~ In k ["if"; "then"; "else"; "allOf"; "anyOf"; "oneOf"; "additionalProperties"; ue] -> mget k m' = mget k m) /\
  (forall k, mhas k m' = true -> mhas k m = true).
Proof.
  intros HM HT. rewrite allow_unknown_step. cbv zeta.
  destruct (remove_false_obj "additionalProperties" m) as (m1 & -> & H1). destruct (remove_false_obj ue m1) as (m2 & -> & H2).
  assert (E2 : entries m2).
  { assert (E1 : entries m1) by (destruct H1 as [->| ->]; auto using entries_mdel). destruct H2 as [->| ->]; auto using entries_mdel. }
  assert (G : forall k, k <> "additionalProperties" -> k <> ue -> mget k m2 = mget k m).
  { intros k N1 N2. transitivity (mget k m1); [destruct H2 as [->| ->]|destruct H1 as [->| ->]]; try reflexivity; rewrite mget_mdel; destruct (String.eqb_spec k ue), (String.eqb_spec k "additionalProperties"); congruence. }
  assert (G2 : forall k, mhas k m2 = true -> mhas k m = true).
  { intros k Hk. assert (Hk1 : mhas k m1 = true) by (destruct H2 as [->| ->]; [exact Hk|]; rewrite mhas_mdel in Hk; now apply andb_true_iff in Hk as [_ Hk]).
    destruct H1 as [->| ->]; [exact Hk1|]. rewrite mhas_mdel in Hk1. now apply andb_true_iff in Hk1 as [_ Hk1]. }
  match goal with |- context[transform_immediate_subschemas_st _ _ ?d2] => destruct (immediate_obj (allow_unknown_n n) m2 d2 HT E2) as (m' & HE & H' & HG & HH) end.
  exists m'. split; [exact HE|]. split; [exact H'|]. split.
  - intros k Hk. cbn [In] in Hk. rewrite HG by (cbn [In]; tauto). apply G; intros ->; tauto.
  - intros k Hk. apply G2. now rewrite <- HH.
Qed.
Lemma allow_unknown_wf n : forall s st, wf s -> wf (fst (allow_unknown_n n s st)).
Proof.
  induction n as [|n IH]; intros s st HS; [exact HS|]. destruct HS as [b|m HM0 HM HC].
  - rewrite allow_unknown_step. cbv zeta. cbn. constructor.
  - destruct (allow_unknown_obj n m st (conj HM0 HM) IH) as (m' & -> & HE & HG & _). apply wf_iff. split; [exact HE|].
    apply (coherent_ext m); auto; apply HG; intros HI; kdiff.
Qed.
Lemma allow_unknown_part m : part m -> exists m', fst (allow_unknown (JObj m)) = JObj m' /\ part m'.
Proof.
  intros (HE & HC & HI). unfold allow_unknown. assert (HD : exists n, depth (JObj m) = S n) by (pose proof (depth_pos (JObj m)); destruct (depth (JObj m)); [lia|eauto]).
  destruct HD as (n & ->). destruct (allow_unknown_obj n m false HE (allow_unknown_wf n)) as (m' & -> & H1 & H2 & H3). exists m'. split; [reflexivity|].
  split; [exact H1|]. split; [rewrite H2; auto; intros H; kdiff|]. intros HU. apply no_immediate_iff. intros k Hk.
  pose proof (proj1 (no_immediate_iff m) (HI HU) k Hk) as HN. destruct (mget k m') eqn:EM; [|reflexivity].
  assert (HX : mhas k m = true) by (apply H3; unfold mhas; now rewrite EM). unfold mhas in HX. now rewrite HN in HX.
Qed.

(** ** for_flatten *)
(** A schema to be flattened; without "unevaluatedProperties" it must be that of a struct. *)
Definition flattenable (s : json) : Prop := top s /\ (In ue K -> exists m, s = JObj m /\ struct_part m).

Lemma flattened_unit_wf v : wf (flattened_unit_variant v).
Proof.
  apply wf_iff. split.
  - apply entries_mk. intros k x [[= <- <-]|[[= <- <-]|[[= <- <-]|[]]]].
    + apply entry_type. unfold simple_types. listed.
    + apply entry_props. intros n s [[= <- <-]|[]]. apply wf_iff. split; [|now apply coherent_free].
      apply entries_one, entry_type. unfold simple_types. listed.
    + apply (entry_required [v]).
  - now apply coherent_free.
Qed.

(** The first of the alternatives *)
Lemma remove_first m : part m -> (In ue K -> forall o, mget "oneOf" m = Some o -> False) ->
  let '(s, uv) := match s_get "oneOf" (JObj m) with
      | Some (JArr (first :: rest)) =>
          if is_schema first && get_is_str "type" "string" first then
            match s_remove "enum" first with
            | (_, Some (JArr a)) => (fst (s_get_mut_set "oneOf" (JArr rest) (JObj m)), Some a)
            | (first', _) => (fst (s_get_mut_set "oneOf" (JArr (first' :: rest)) (JObj m)), None)
            end
          else (JObj m, None)
      | _ => (JObj m, None)
      end in
  match uv with
  | None => exists m', s = JObj m' /\ part m'
  | Some vs => ~ In ue K /\ (exists v, In (JStr v) vs) /\
      exists m', s = JObj m' /\ mget "const" m' = None /\ entries_but "oneOf" m' /\
        match mget "oneOf" m' with None => True | Some o => exists l, o = JArr l /\ forall x, In x l -> wf x end
  end.
Proof.
  intros HP HU. cbn [s_get]. destruct (mget "oneOf" m) as [o|] eqn:EO; [|eauto].
  destruct o as [| | | |[|first rest]|]; eauto. pose proof HP as (HE & HN & _).
  destruct (is_schema first && get_is_str "type" "string" first) eqn:EF; [|eauto].
  assert (NU : ~ In ue K) by (intros H; exact (HU H _ eq_refl)).
  apply andb_true_iff in EF as [_ EF]. destruct (entries_get _ _ _ HE EO) as [HX _]. apply kw_list_inv in HX as (l & [= <-] & _ & HW); [|listed].
  pose proof (HW first (or_introl eq_refl)) as HF. destruct HF as [b|f F0 F1 F2]; [discriminate EF|]. cbn [s_remove s_get_mut_set].
  unfold get_is_str in EF. cbn [s_get] in EF. destruct (mget "type" f) as [[| | |t| |]|] eqn:ET; try discriminate. apply String.eqb_eq in EF. subst t.
  unfold mhas. rewrite EO. cbn [fst].
  assert (HM : forall x, (forall k, mget k (mupd "oneOf" (fun _ => x) m) = if String.eqb k "oneOf" then Some x else mget k m)).
  { intros x k. rewrite mget_mupd. destruct (String.eqb_spec k "oneOf") as [->|]; [now rewrite EO|reflexivity]. }
  destruct (mget "enum" f) as [e|] eqn:EE.
  - assert (HX : entry "enum" e) by (apply F1, mget_In, EE). destruct HX as [HX _]. apply kw_enum_inv in HX as (a & -> & HA).
    split; [exact NU|]. split.
    { destruct a as [|x a]; [easy|]. destruct (co_strings _ F2 ET _ EE x (or_introl eq_refl)) as (v & ->). exists v. now left. }
    eexists. split; [reflexivity|]. rewrite !HM. cbn [String.eqb Ascii.eqb Bool.eqb]. split; [exact HN|]. split.
    + destruct HE as [S0 E0]. split; [now rewrite mupd_keys|]. intros k x Hx Nk. apply mupd_In in Hx as [Hx|(y & _ & [= -> _])]; [auto|congruence].
    + exists rest. split; [reflexivity|]. intros x Hx. apply HW. now right.
  - eexists. split; [reflexivity|]. split; [|split; [now rewrite HM|intros H; contradiction]].
    apply entries_mupd; [exact HE|]. intros _ _. apply entry_list; [listed|easy|]. intros x [<-|Hx]; [|apply HW; now right].
    apply wf_iff. split; [apply entries_mdel; now split|]. apply coherent_mdel; [discriminate|exact F2].
Qed.

(** The strings taken out of the schema, and what is left of it *)
Lemma remove_units_part m : top (JObj m) -> (In ue K -> struct_part m) ->
  let '(s, uv) := remove_unit_variants (JObj m) in
  match uv with
  | None => exists m', s = JObj m' /\ part m'
  | Some vs => ~ In ue K /\ (exists v, In (JStr v) vs) /\
      exists m', s = JObj m' /\ mget "const" m' = None /\ entries_but "oneOf" m' /\
        match mget "oneOf" m' with None => True | Some o => exists l, o = JArr l /\ forall x, In x l -> wf x end
  end.
Proof.
  intros HT HU. apply top_obj in HT as (HE & HC & HN). unfold remove_unit_variants.
  destruct (get_is_str "type" "string" (JObj m)) eqn:ES; cbn [s_get] in ES.
  - unfold get_is_str in ES. cbn [s_get] in ES. destruct (mget "type" m) as [[| | |t| |]|] eqn:ET; try discriminate. apply String.eqb_eq in ES. subst t.
    assert (NU : ~ In ue K). { intros H. destruct (HU H) as [_ HX]. congruence. }
    cbn [s_remove]. destruct (mget "enum" m) as [e|] eqn:EE.
    + destruct (entries_get _ _ _ HE EE) as [HX _]. apply kw_enum_inv in HX as (a & -> & HA). cbn [s_remove fst].
      split; [exact NU|]. split.
      { destruct a as [|x a]; [easy|]. destruct (co_strings _ HC ET _ EE x (or_introl eq_refl)) as (v & ->). exists v. now left. }
      exists (mdel "type" (mdel "enum" m)). split; [reflexivity|]. split; [now rewrite !mget_mdel|]. split; [apply entries_weak; now do 2 apply entries_mdel|].
      rewrite !mget_mdel. cbn [String.eqb Ascii.eqb Bool.eqb]. destruct (mget "oneOf" m) as [o|] eqn:EO; [|exact I].
      destruct (entries_get _ _ _ HE EO) as [HX _]. apply kw_list_inv in HX as (l & -> & _ & HW); [|listed]. eauto.
    + set (m1 := mdel "enum" m). assert (P1 : part m1).
      { split; [now apply entries_mdel|]. split; [unfold m1; now rewrite mget_mdel|]. intros H. contradiction. }
      apply remove_first; auto.
  - apply remove_first; [split; [exact HE|split; [exact HN|intros H; now apply HU]]|].
    intros H o EO. destruct (HU H) as [(_ & _ & HI) _]. pose proof (proj1 (no_immediate_iff m) (HI H) "oneOf") as HX. rewrite EO in HX.
    assert (HF : Some o = None) by (apply HX; unfold immediate_keys; listed). discriminate.
Qed.

Lemma for_flatten_part s opt : flattenable s -> (exists b, for_flatten s opt = JBool b) \/ exists m, for_flatten s opt = JObj m /\ part m.
Proof.
  intros [HT HU]. destruct s as [|b| | | |m]; try (destruct HT as [HT _]; inversion HT; fail).
  { left. exists b. unfold for_flatten. cbn. destruct opt; reflexivity. }
  right. assert (HU' : In ue K -> struct_part m). { intros H. destruct (HU H) as (m' & [= <-] & HS). exact HS. }
  pose proof (remove_units_part m HT HU') as HR. unfold for_flatten. destruct (remove_unit_variants (JObj m)) as [s1 uv].
  set (s2 := match uv with Some vs => _ | None => s1 end).
  assert (H2 : exists m2, s2 = JObj m2 /\ part m2).
  { unfold s2. destruct uv as [vs|]; [|exact HR]. destruct HR as (NU & (v & Hv) & m' & -> & C' & E' & O'). change (ensure_obj (JObj m')) with m'. cbv zeta.
    set (m3 := if mhas "oneOf" m' then m' else mset "oneOf" (JArr []) m').
    assert (H3 : exists l, mget "oneOf" m3 = Some (JArr l) /\ (forall x, In x l -> wf x) /\ entries_but "oneOf" m3 /\ mget "const" m3 = None).
    { unfold m3, mhas. destruct (mget "oneOf" m') as [o|] eqn:EO.
      - destruct O' as (l & -> & HL). eauto.
      - exists []. rewrite mget_mset_eq. split; [reflexivity|]. split; [intros x []|]. split; [|now rewrite mget_mset_ne by discriminate].
        destruct E' as [S' E']. split; [now apply sorted_mset|]. intros k x Hx Nk. apply mset_In_only in Hx as [[-> ->]|[_ Hx]]; auto. congruence. }
    destruct H3 as (l & O3 & L3 & E3 & C3). match goal with |- context[mget "oneOf" ?x] => change x with m3 end. rewrite O3. eexists. split; [reflexivity|]. split; [|split; [now rewrite mget_mset_ne by discriminate|intros H; contradiction]].
    apply entries_fix; [|exact E3]. apply entry_list; [listed| |].
    - intros HX. apply app_eq_nil in HX as [_ HX]. assert (HI : In (flattened_unit_variant v) []).
      { rewrite <- HX. apply in_flat_map. exists (JStr v). split; [exact Hv|now left]. } destruct HI.
    - intros x Hx. apply in_app_iff in Hx as [Hx|Hx]; [auto|]. apply in_flat_map in Hx as (y & _ & Hy). destruct y; try contradiction. destruct Hy as [<-|[]]. apply flattened_unit_wf. }
  clearbody s2. clear HR. destruct H2 as (m2 & -> & P2). set (s3 := if opt then _ else JObj m2).
  assert (H3 : exists m3, s3 = JObj m3 /\ part m3).
  { unfold s3. destruct opt; [|eauto]. cbn [s_remove fst].
    assert (PD : forall k m, k <> "const" -> part m -> part (mdel k m)).
    { clear. intros k m Nk (E & C & I). split; [now apply entries_mdel|]. split; [rewrite mget_mdel; now destruct (String.eqb "const" k)|]. intros H. apply no_immediate_iff.
      intros k' Hk'. rewrite mget_mdel. destruct (String.eqb k' k); [reflexivity|]. now apply (proj1 (no_immediate_iff m) (I H)). }
    assert (P3 : part (mdel "required" m2)) by (apply PD; [discriminate|exact P2]).
    set (mr := mdel "required" m2) in *. clearbody mr.
    assert (P4 : part (mdel "oneOf" mr)) by (apply PD; [discriminate|exact P3]).
    set (s4 := match mget "oneOf" mr with Some o => _ | None => _ end).
    assert (H4 : exists m4, s4 = JObj m4 /\ part m4).
    { unfold s4. destruct (mget "oneOf" mr) as [o|] eqn:EO; [|eauto].
      destruct (flatten_objects (mdel "oneOf" mr) [("anyOf", JArr [JObj [("oneOf", o)]; JObj []])] P4) as (m4 & HE & HP & _); [|exists m4; split; [exact HE|exact HP]].
      split; [|split; [reflexivity|]].
      - apply entries_one, entry_list; [listed|easy|]. intros x [<-|[<-|[]]]; apply wf_iff.
        + split; [apply entries_one; apply (entries_get _ _ _ (proj1 P3) EO)|now apply coherent_free].
        + split; [apply entries_nil|now apply coherent_free].
      - intros H. exfalso. destruct P3 as (_ & _ & I). pose proof (proj1 (no_immediate_iff mr) (I H) "oneOf") as HX. rewrite EO in HX.
        assert (HF : Some o = None) by (apply HX; unfold immediate_keys; listed). discriminate. }
    clearbody s4. destruct H4 as (m4 & -> & P5). cbn [s_get]. destruct (mget "anyOf" m4) as [[| | | |l|]|] eqn:EA; eauto.
    destruct (existsb _ l); [eauto|]. cbn [s_get_mut_set]. unfold mhas. rewrite EA. cbn [fst]. eexists. split; [reflexivity|].
    destruct P5 as (E & C & I). split; [|split].
    - apply entries_mupd; [exact E|]. intros _ _. destruct (entries_get _ _ _ E EA) as [HX _]. apply kw_list_inv in HX as (l' & [= <-] & HL & HW); [|listed].
      apply entry_list; [listed|now destruct l|]. intros x Hx. apply in_app_iff in Hx as [Hx|[<-|[]]]; [auto|]. apply wf_iff. split; [apply entries_nil|now apply coherent_free].
    - rewrite mget_mupd. change (String.eqb "const" "anyOf") with false. exact C.
    - intros H. exfalso. pose proof (proj1 (no_immediate_iff m4) (I H) "anyOf") as HX. rewrite EA in HX.
      assert (HF : Some (JArr l) = None) by (apply HX; unfold immediate_keys; listed). discriminate. }
  clearbody s3. destruct H3 as (m3 & -> & P6). apply allow_unknown_part, P6.
Qed.

(** ** The other helpers *)
Lemma internal_newtype_top a b s : top s -> top (fst (for_internal_newtype a b s)).
Proof.
  intros [HW HC]. unfold for_internal_newtype. destruct (transform_immediate_subschemas_st (allow_unknown_n (depth s)) s false) as [s' did] eqn:E.
  cbn [fst]. assert (HS : s' = fst (transform_immediate_subschemas_st (allow_unknown_n (depth s)) s false)) by now rewrite E.
  rewrite HS. split; [apply immediate_wf; [apply allow_unknown_wf|exact HW]|]. destruct HW as [b'|m H1 H2 H3]; [reflexivity|].
  destruct (immediate_obj (allow_unknown_n (depth (JObj m))) m false (allow_unknown_wf _) (conj H1 H2)) as (m' & -> & _ & HG & _).
  cbn [s_get] in *. rewrite HG; [exact HC|]. intros HI. kdiff.
Qed.

Definition tag_of (variant : string) : json := obj [("type", JStr "string"); ("const", JStr variant)].
Lemma tag_wf variant : wf (tag_of variant).
Proof.
  apply wf_iff. split.
  - apply entries_mk. intros k x [[= <- <-]|[[= <- <-]|[]]]; [apply entry_type; unfold simple_types; listed|]. split; [apply kw_const|nk].
  - constructor; cbn; auto; [discriminate|]. intros [H|H]; discriminate H.
Qed.

Lemma props_update key sub x : wf sub -> entry "properties" x -> entry "properties" (in_obj (mset key sub) x).
Proof.
  intros HS [HX _]. apply kw_named_inv in HX as (p & -> & HP); [|listed]. cbn [in_obj]. apply entry_props. intros n s Hs.
  apply mset_In in Hs as [[= -> ->]|Hs]; eauto.
Qed.
Lemma props_empty : entry "properties" (JObj []).
Proof. apply entry_props. intros n s []. Qed.
Lemma required_update f g x : (forall l, f (map JStr l) = map JStr (g l)) -> entry "required" x -> entry "required" (in_arr f x).
Proof. intros HF [HX _]. apply kw_required_inv in HX as (l & ->). cbn [in_arr]. rewrite HF. apply entry_required. Qed.

Lemma update_get k d f m k' : k' <> k -> mget k' (entry_update k d f m) = mget k' m.
Proof.
  intros H. unfold entry_update. rewrite mget_mupd. destruct (String.eqb_spec k' k); [congruence|]. destruct (mhas k m); [reflexivity|]. now apply mget_mset_ne.
Qed.
Lemma update_immediate k d f m : ~ In k immediate_keys -> no_immediate m -> no_immediate (entry_update k d f m).
Proof. rewrite !no_immediate_iff. intros HN H k' Hk'. rewrite update_get; auto. intros ->. auto. Qed.

Lemma apply_tag_top tag variant deny s : top s -> top (apply_internal_tag tag variant deny s).
Proof.
  intros HS. apply top_ensure in HS. unfold apply_internal_tag. set (m := ensure_obj s) in *. clearbody m. clear s. apply top_obj in HS as (HE & _ & HC).
  set (m1 := mset "type" (JStr "object") m).
  assert (E1 : entries m1) by (apply entries_mset; [apply entry_type; unfold simple_types; listed|exact HE]).
  set (m2 := entry_update "properties" _ _ m1).
  assert (E2 : entries m2) by (apply entries_update; [apply props_empty|intros x; apply props_update, tag_wf|exact E1]).
  set (m3 := entry_update "required" _ _ m2).
  assert (E3 : entries m3) by (apply entries_update; [apply (entry_required [])|intros x; apply (required_update _ (fun l => tag :: l)); reflexivity|exact E2]).
  assert (T3 : mget "type" m3 = Some (JStr "object")) by (unfold m3, m2; rewrite !update_get by discriminate; apply mget_mset_eq).
  assert (C3 : mget "const" m3 = None) by (unfold m3, m2; rewrite !update_get by discriminate; unfold m1; now rewrite mget_mset_ne by discriminate).
  match goal with |- top (JObj (if ?b then _ else _)) => destruct b end; apply top_obj.
  - split; [apply entries_update; auto; apply entry_ap; constructor|]. rewrite !update_get by discriminate. split; [|exact C3].
    eapply coherent_typed; rewrite ?update_get by discriminate; eauto; discriminate.
  - split; [exact E3|]. split; [|exact C3]. eapply coherent_typed; eauto; discriminate.
Qed.

Lemma insert_property_struct m key opt sub : struct_part m -> wf sub -> exists m', insert_object_property (JObj m) key opt sub = JObj m' /\ struct_part m'.
Proof.
  intros ((E & C & I) & T) HS. unfold insert_object_property. cbn [ensure_obj ensure_object].
  set (m1 := entry_update "properties" _ _ m).
  assert (P1 : struct_part m1).
  { split; [split; [|split]|].
    - apply entries_update; [apply props_empty|intros x; now apply props_update|exact E].
    - unfold m1. now rewrite update_get by discriminate.
    - intros H. apply update_immediate; [unfold immediate_keys; intros HI; kdiff|exact (I H)].
    - unfold m1. now rewrite update_get by discriminate. }
  clearbody m1. clear m E C I T. eexists. split; [reflexivity|]. destruct opt; [exact P1|]. destruct P1 as ((E & C & I) & T). split; [split; [|split]|].
  - apply entries_update; [apply (entry_required [])|intros x; apply (required_update _ (fun l => l ++ [key])); intros l; now rewrite map_app|exact E].
  - now rewrite update_get by discriminate.
  - intros H. apply update_immediate; [unfold immediate_keys; intros HI; kdiff|exact (I H)].
  - now rewrite update_get by discriminate.
Qed.

Lemma external_top variant sub : wf sub -> top (new_externally_tagged_enum_variant variant sub).
Proof.
  intros HS. apply top_obj. split; [|split; [|reflexivity]].
  - apply entries_mk. intros k x [[= <- <-]|[[= <- <-]|[[= <- <-]|[[= <- <-]|[]]]]].
    + apply entry_type. unfold simple_types. listed.
    + apply entry_props. intros n s [[= <- <-]|[]]. exact HS.
    + apply (entry_required [variant]).
    + apply entry_ap. constructor.
  - now apply coherent_free.
Qed.
End Wf.
