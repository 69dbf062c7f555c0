(** Property theorem C53: every generated document is a well-formed JSON Schema. *)
From Coq Require Import String Ascii List ZArith Bool Lia.
From Verif Require Import ValidationAttrs Json JsonFacts EncodingProofs Pointer PointerProofs SchemaApi Private Generate GenerateDoc SerValue Types TypesShape Serde
  Derivation TypeId Sound Properties_Sound Wellformed WellformedFacts WellformedTypes.
Import ListNotations.
Open Scope string_scope.
Open Scope list_scope.

(** Where the definitions may be put: in one of the keywords for it, or below a key that is not a
    keyword ("/components/schemas", say). *)
Definition place (path : string) : Prop :=
  good_path path /\ exists tok more, path_tokens path = tok :: more /\ ((In tok ["$defs"; "definitions"] /\ more = []) \/ ~ In tok vocabulary).

Section Add.
Variable K : list string.
Hypothesis HK : forall k, In k K -> In k optional_keywords.
Notation wf := (wellformed K).
Notation entry := (entry K).
Notation entries := (entries K).
Ltac nk := apply (free K HK); let H := fresh in intros H; unfold optional_keywords in H; cbn [In] in H; repeat (destruct H as [H|H]); try discriminate H; exact H.

Lemma named_entry k p : In k ["$defs"; "definitions"] -> (forall n s, In (n, s) p -> wf s) -> entry k (JObj p).
Proof. intros H HP. cbn [In] in H. destruct H as [<-|[<-|[]]]; (split; [apply kw_named; [listed|exact HP]|nk]). Qed.
Lemma other_entry k x : ~ In k vocabulary -> entry k x.
Proof. intros H. now apply (note_entry K HK), note_other. Qed.
Lemma tok_inert tok : In tok ["$defs"; "definitions"] \/ ~ In tok vocabulary -> inert tok.
Proof.
  intros [H|H].
  - cbn [In] in H. destruct H as [<-|[<-|[]]]; repeat split; discriminate.
  - repeat split; intros ->; apply H; apply existsb_In; vm_compute; reflexivity.
Qed.

Lemma add_definitions_wf path o (defs : map_t) : place path -> wf (JObj o) -> (forall n d, In (n, d) defs -> wf d) -> wf (JObj (add_definitions path o defs)).
Proof.
  intros (HG & tok & more & HT & HC) HO HD. unfold add_definitions. destruct defs as [|d0 defs0] eqn:ED; [exact HO|]. rewrite <- ED in *. clear d0 defs0 ED.
  rewrite json_pointer_update_good by exact HG. rewrite HT. apply wf_iff in HO as [HE HH].
  assert (HI : inert tok) by (apply tok_inert; tauto).
  cbn [walk_create]. match goal with |- context[mget tok ?x] => set (o1 := x) end.
  assert (E1 : entries o1 /\ coherent o1).
  { subst o1. destruct (mhas tok o); [auto|]. split; [apply entries_mset; [|exact HE]|now apply coherent_mset].
    destruct HC as [[HC _]|HC]; [apply named_entry; [exact HC|intros n s []]|now apply other_entry]. }
  clearbody o1. clear o HE HH. destruct E1 as [HE HH].
  destruct (mget tok o1) as [[| | | | |sub]|] eqn:EG; try (apply wf_iff; now split).
  destruct (walk_create more (fun t => mappend t defs) sub) as [sub' ok] eqn:EW. cbn [fst]. apply wf_iff. split.
  - apply entries_mupd; [exact HE|]. intros _ _. destruct HC as [[HC ->]|HC]; [|now apply other_entry].
    cbn [walk_create] in EW. injection EW as <- <-. apply named_entry; [exact HC|]. intros n s HS. apply mappend_In in HS as [HS|HS]; [eauto|].
    pose proof (entries_get K _ _ _ HE EG) as [HX _]. apply (kw_named_inv wf) in HX; [|cbn [In] in HC |- *; tauto]. destruct HX as (p & [= ->] & HX). eauto.
  - destruct HI as (N1 & N2 & N3). eapply coherent_ext; [..|exact HH]; rewrite mget_mupd;
      match goal with |- context[String.eqb ?a ?b] => destruct (String.eqb_spec a b) end; congruence.
Qed.

Lemma root_object_wf {X St} (items : nat -> item X) t (s : settings St) sch : wf sch -> wf (JObj (root_object (info items) t s sch)).
Proof.
  intros H. apply (wf_ensure K HK) in H. unfold root_object.
  set (o := ensure_obj sch) in *. clearbody o. set (o1 := if mhas "title" o then o else _).
  assert (H1 : wf (JObj o1)).
  { subst o1. destruct (mhas "title" o); [exact H|]. apply wf_iff in H as [E C]. apply wf_iff.
    split; [apply entries_mset; [apply (note_entry K HK), note_text; listed|exact E]|apply coherent_mset; [repeat split; discriminate|exact C]]. }
  clearbody o1. destruct (s_meta s) as [m|]; [|exact H1]. apply wf_iff in H1 as [E C]. apply wf_iff.
  split; [apply entries_mset; [|exact E]|apply coherent_mset; [repeat split; discriminate|exact C]]. split; [apply kw_text; listed|nk].
Qed.
End Add.

(** The document of any declared type on a new generator is well-formed, and so is everything in
    [generator.definitions()]. [K] are keywords not to be used: see C54. *)
Theorem C53_wellformed_partial : forall St X (items : nat -> item X) K (s : settings St) st fuel t doc g',
  (forall k, In k K -> In k optional_keywords) -> s_transforms s = [] -> place (s_path s) ->
  (forall u, reach items t u -> noted K items (s_contract s) u) ->
  root_schema_for (info items) (json_schema (info items) fuel) t (new_gen s st) = Some (doc, g') ->
  wellformed K doc /\ forall n d, mget n (g_defs g') = Some d -> wellformed K d.
Proof.
  intros St X items K s st fuel t doc g' HK HT HP HN HR.
  destruct (root_derives_defs (info items) (reach items t) fuel t s st doc g') as (gf & sch & H1 & H2 & H3 & H4 & _ & _ & _ & H8 & H9); auto.
  - apply reach_closed. - apply reach_refl.
  - assert (HW : forall n d, mget n (g_defs gf) = Some d -> wellformed K d).
    { intros n d H. apply H4 in H as (u & HU & _ & _ & H). unfold derives_f in H. rewrite H1 in H.
      eapply (proj1 (proj1 (derives_described K items s _ _ (reach items t) u d HK HN HU H))). }
    rewrite <- H9. split; [|exact HW]. subst doc. apply (add_definitions_wf K HK); [exact HP| |].
    + apply (root_object_wf K HK). unfold derives_f in H2. rewrite H1 in H2.
      eapply (proj1 (proj1 (derives_described K items s _ _ (reach items t) t sch HK HN (reach_refl _ _) H2))).
    + intros n d H. apply (HW n). apply NoDup_mget; [|exact H]. now apply sorted_NoDup.
Qed.
Print Assumptions C53_wellformed_partial.

(** The program of C46, in both contracts, without any of the optional keywords *)
Lemma no_notes : notes [].
Proof. intros k x []. Qed.
Lemma description_notes s : notes [("description", JStr s)].
Proof. intros k x [[= <- <-]|[]]. apply note_text. listed. Qed.
Lemma ex_noted K c t u : In t ex_types -> reach ex_prog t u -> noted K ex_prog c u.
Proof.
  intros HT HR. assert (HL : In u ex_types) by (eapply reach_list; [exact HT|apply ex_closed|exact HR]). clear HT HR t.
  assert (HF : forall fs : list (field rval), (forall f, In f fs -> (f_meta f = [] /\ f_valid f = no_vattrs) /\ (f_flatten f = true -> f_ty f = TOption (TAdt 1 [] []))) -> noted_style K ex_prog c (Struct fs)).
  { intros fs H. constructor.
    - intros f Hf. destruct (H f Hf) as [[HM HV] _]. split; [rewrite HM; apply no_notes|rewrite HV; now cbn].
    - intros f Hf _ HL' _. destruct (H f Hf) as [_ E]. rewrite (E HL'). exists 1, [], []. eexists _, _. split; reflexivity.
    - discriminate. }
  assert (HD : forall n, n = 0 \/ n = 1 \/ n = 2 -> noted_decl K ex_prog c (it_decl (ex_prog n) [] [])).
  { intros n [->|[->| ->]]; (constructor; [first [apply no_notes|apply description_notes]|]); cbn [ex_prog it_decl d_data].
    - apply HF. intros f Hf. cbn in Hf. repeat (destruct Hf as [<-|Hf]; [split; [split; reflexivity|first [discriminate|reflexivity]]|]). destruct Hf.
    - apply HF. intros f Hf. cbn in Hf. repeat (destruct Hf as [<-|Hf]; [split; [split; reflexivity|first [discriminate|reflexivity]]|]). destruct Hf.
    - constructor.
      + intros v Hv. cbn [In] in Hv. destruct Hv as [<-|[<-|[<-|[]]]]; cbn [v_style].
        * constructor; [intros f []|intros f []|discriminate].
        * apply HF. intros f [<-|[]]. split; [split; reflexivity|discriminate].
        * constructor; [intros f [<-|[]]; split; [apply no_notes|now cbn]|intros f [<-|[]] _; discriminate|discriminate].
      + intros v Hv. cbn [In] in Hv. destruct Hv as [<-|[<-|[<-|[]]]]; first [apply no_notes|apply description_notes].
      + right. eexists. split; [left; reflexivity|]. now destruct c.
      + discriminate. }
  unfold ex_types in HL. cbn [In] in HL.
  repeat (destruct HL as [<-|HL]; [first [exact I|apply HD; auto]|]). destruct HL.
Qed.

Example C53_example :
  place (s_path ex_settings) /\ place "#/components/schemas" /\ s_transforms ex_settings = []
  /\ (forall u, reach ex_prog (TAdt 0 [] []) u -> noted optional_keywords ex_prog Serialize u)
  /\ (exists g', root_schema_for (info ex_prog) (json_schema (info ex_prog) 20) (TAdt 0 [] []) (new_gen ex_settings tt)
       = Some (doc_of ex_prog (TAdt 0 [] []), g') /\ map fst (g_defs g') = ["Shape"])
  /\ wellformed optional_keywords (doc_of ex_prog (TAdt 0 [] []))
  /\ ~ wellformed [] (JObj [("type", JStr "text")])
  /\ ~ wellformed [] (JObj [("properties", JObj [("a", JObj [("anyOf", JObj [])])])]).
Proof.
  assert (P1 : place (s_path ex_settings)).
  { split; [eexists; split; [reflexivity|discriminate]|]. exists "$defs", []. split; [reflexivity|]. left. split; [listed|reflexivity]. }
  assert (N : forall u, reach ex_prog (TAdt 0 [] []) u -> noted optional_keywords ex_prog Serialize u).
  { intros u. apply ex_noted. now left. }
  split; [exact P1|]. split.
  { split; [eexists; split; [reflexivity|discriminate]|]. exists "components", ["schemas"]. split; [reflexivity|]. right. intros H.
    assert (HX : existsb (String.eqb "components") vocabulary = true); [|vm_compute in HX; discriminate].
    apply existsb_exists. exists "components". split; [exact H|reflexivity]. }
  split; [reflexivity|]. split; [exact N|]. split; [eexists; split; vm_compute; reflexivity|]. split.
  { assert (HR : exists g', root_schema_for (info ex_prog) (json_schema (info ex_prog) 20) (TAdt 0 [] []) (new_gen ex_settings tt)
       = Some (doc_of ex_prog (TAdt 0 [] []), g')) by (eexists; vm_compute; reflexivity).
    destruct HR as [g' HR]. eapply (proj1 (C53_wellformed_partial _ _ ex_prog optional_keywords ex_settings tt 20 _ _ g' (fun k H => H) eq_refl P1 N HR)). }
  split; intros H; inversion H as [|m _ HE _]; subst.
  - destruct (HE "type" (JStr "text") (or_introl eq_refl)) as [HX _]. apply kw_type_inv in HX as [(t & [= <-] & HX)|(ts & HX & _)]; [|discriminate].
    unfold simple_types in HX. cbn [In] in HX. repeat (destruct HX as [HX|HX]; [discriminate|]). exact HX.
  - destruct (HE _ _ (or_introl eq_refl)) as [HX _]. apply kw_named_inv in HX as (p & [= <-] & HX); [|listed].
    specialize (HX _ _ (or_introl eq_refl)). inversion HX as [|m _ HE2 _]; subst.
    destruct (HE2 _ _ (or_introl eq_refl)) as [HY _]. apply kw_list_inv in HY as (l & HY & _); [discriminate|listed].
Qed.

(** What the hypotheses leave out. enum T { #[serde(skip)] A(u8) }: the "oneOf" is empty, which no
    validator accepts as a schema. *)
Definition has_empty_list (k : string) (items : nat -> item rval) (t : rty) : Prop :=
  root_document items ex_settings tt 20 t (doc_of items t) /\ s_get k (doc_of items t) = Some (JArr []) /\ ~ wellformed [] (doc_of items t).
Lemma empty_not_wf k m : In k ["allOf"; "anyOf"; "oneOf"; "prefixItems"; "enum"] -> mget k m = Some (JArr []) -> ~ wellformed [] (JObj m).
Proof.
  intros HK HG H. inversion H as [|m' _ HE _]; subst. destruct (HE k (JArr []) (mget_In _ _ _ HG)) as [HX _].
  destruct (String.eqb_spec k "enum") as [->|HN].
  - apply kw_enum_inv in HX as (l & [= <-] & HX). congruence.
  - apply kw_list_inv in HX as (l & [= <-] & HX & _); [congruence|]. cbn [In] in HK |- *. intuition congruence.
Qed.
Ltac empty_list k := split; [eexists; vm_compute; reflexivity|split; [vm_compute; reflexivity|]];
  match goal with |- ~ wellformed [] ?d => let d' := eval vm_compute in d in change (~ wellformed [] d') end; apply (empty_not_wf k); [listed|reflexivity].

Theorem C53_no_variants_left_refuted :
  has_empty_list "oneOf" (one_item (Decl false (DEnum External [Variant "A" "A" true true false (Newtype (fld "0" (TInt U8))) []]) [])) (TAdt 0 [] []).
Proof. empty_list "oneOf". Qed.
Print Assumptions C53_no_variants_left_refuted.
(** enum T { #[serde(skip_serializing)] A } for the serialize contract: the "enum" is empty. *)
Theorem C53_no_names_left_refuted :
  has_empty_list "enum" (one_item (Decl false (DEnum External [Variant "A" "A" true false false Unit []]) [])) (TAdt 0 [] []).
Proof. empty_list "enum". Qed.
Print Assumptions C53_no_names_left_refuted.
(** struct T { x: u8, #[serde(flatten)] u: U } with struct U { x: u8 }: "required" has the name "x" twice,
    and the draft asks its elements to be unique ([kw_required] of the specification does not). *)
Theorem C53_required_twice_refuted :
  let items := two_items (Decl false (DStruct false (Struct [fld "x" (TInt U8); flat "u" (TAdt 1 [] [])])) [])
                         (Decl false (DStruct false (Struct [fld "x" (TInt U8)])) []) in
  root_document items ex_settings tt 20 (TAdt 0 [] []) (doc_of items (TAdt 0 [] []))
  /\ s_get "required" (doc_of items (TAdt 0 [] [])) = Some (JArr [JStr "x"; JStr "x"]).
Proof. cbv zeta. split; [eexists; vm_compute; reflexivity|vm_compute; reflexivity]. Qed.
Print Assumptions C53_required_twice_refuted.

(** struct T { #[validate(length(min = -1))] s: String }: the bound is written down as it is. *)
Definition checked_fld (n : string) (t : rty) (a : vattrs) : field rval := Field n n t false false None false None false a [].
Definition negative_length : nat -> item rval :=
  one_item (Decl false (DStruct false (Struct [checked_fld "s" TStr (VAttrs (Some (LR (Some (JNum (NInt (-1)))) None None)) None None None None false None None)])) []).
Lemma wf_keyword K m k x : wellformed K (JObj m) -> mget k m = Some x -> keyword (wellformed K) k x.
Proof. intros H HG. inversion H; subst. apply mget_In in HG. match goal with HE : forall k x, In _ _ -> _ |- _ => apply HE in HG end. apply HG. Qed.
Theorem C53_negative_length_refuted :
  root_document negative_length ex_settings tt 20 (TAdt 0 [] []) (doc_of negative_length (TAdt 0 [] []))
  /\ ~ wellformed [] (doc_of negative_length (TAdt 0 [] [])).
Proof.
  split; [eexists; vm_compute; reflexivity|]. intros H.
  let d := eval vm_compute in (doc_of negative_length (TAdt 0 [] [])) in
    assert (HD : doc_of negative_length (TAdt 0 [] []) = d) by (vm_compute; reflexivity). rewrite HD in H. clear HD.
  pose proof (wf_keyword [] _ "properties" _ H eq_refl) as HP. clear H.
  assert (HW : wellformed [] (JObj [("minLength", JNum (NInt (-1))); ("type", JStr "string")])).
  { inversion HP as [k s HI|k l HI|k p HI HW| | | | | | | | | |k x HN]; subst; try kdiff.
    - apply (HW "s"). now left.
    - exfalso. apply (note_not _ _ HN). listed. }
  pose proof (wf_keyword [] _ "minLength" _ HW eq_refl) as HL. clear HW.
  inversion HL as [k s HI|k l HI|k p HI HW'| | | | | |k n HI|k n HI| | |k x HN]; subst; try kdiff.
  - match goal with HZ : Z.of_nat n = _ |- _ => destruct n; discriminate HZ end.
  - inversion HN; subst; try kdiff. apply H. unfold vocabulary. listed.
Qed.
Print Assumptions C53_negative_length_refuted.
