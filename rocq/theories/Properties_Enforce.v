(** Property theorems C63: what validation attributes ask for is asked by the generated document.

    What the attributes mean is specified in ValidationProofs.v ([satisfies]: a string's length is counted in
    characters, an array's in items, "range" bounds numbers, "regex"/"pattern"/"contains" are about
    strings, "inner" about an array's items). [reads] (Reads.v) asks for it of every field of every
    struct and variant found in the JSON, at any depth. *)
From Coq Require Import String Ascii List ZArith Bool Lia.
From Verif Require Import ValidationAttrs ValidationProofs ValidationField Json JsonFacts Utf8 Encoding SchemaApi Transform Validate ValidateFacts ValidateKw
  Pointer Private Generate GenerateDoc SerValue Types TypesShape Serde Derivation SoundBase SoundStruct SoundTypes SoundAdt Sound
  ValidateRefs Properties_Types TypeId Properties_Sound Properties_Contract Reads ReadsChecks ReadsStep ReadsDoc Properties_Reads.
Import ListNotations.
Open Scope string_scope.
Open Scope list_scope.

(** Reading a value and checking it against its validation attributes *)
Definition validated (E : env) : checks := Checks (fun _ _ => true) (satisfies E).

(** Integers' formats are checked, references followed into the document. *)
Record int_validator (path : string) (doc : json) (E : env) : Prop := {
  iv_int : forall i z, In i [I32; I64; ISize; U32; U64; USize] -> e_fmt E (int_format i) (JNum (NInt z)) = true -> in_range i z = true;
  iv_refs : resolves E path doc }.

(** At every depth. Missing: the types that C62 leaves out, and attributes that do not narrow the field's
    type ([narrows]): on fields whose schema is a reference (refuted below), bounds outside an
    integer's type (refuted below), formats on numbers. *)
Theorem C63_validation_enforced_partial : forall St (items : nat -> item rval) tok (s : settings St) st fuel t doc E j,
  plain_settings tok Deserialize s -> readable items tok t -> root_document items s st fuel t doc -> int_validator (s_path s) doc E ->
  instance j -> valid D2020 E doc j = true -> reads items (validated E) t j.
Proof.
  intros St items tok s st fuel t doc E j HS HU HR HV HI HJ. eapply C62_accepted_json_is_read_partial; eauto.
  constructor; [|apply HV]. constructor; [apply HV|reflexivity|auto].
Qed.
Print Assumptions C63_validation_enforced_partial.

(** The fields of a struct. (A flattened field has no attributes of its own; the fields of its struct are
    covered by the first theorem.) *)
Theorem C63_struct_fields_partial : forall St (items : nat -> item rval) tok (s : settings St) st fuel i cs ts def fs doc E j,
  plain_settings tok Deserialize s -> readable items tok (TAdt i cs ts) -> root_document items s st fuel (TAdt i cs ts) doc ->
  int_validator (s_path s) doc E -> d_data (it_decl (items i) cs ts) = DStruct def (Struct fs) ->
  instance j -> valid D2020 E doc j = true ->
  exists o, j = JObj o
  /\ forall f, In f fs -> f_skip_de f = false -> f_flatten f = false ->
       (forall x, mget (f_de f) o = Some x -> satisfies E (f_valid f) x = true)
       /\ (va_required (f_valid f) = true -> def = false -> f_default f = false -> is_option (f_ty f) = false -> mget (f_de f) o <> None).
Proof.
  intros St items tok s st fuel i cs ts def fs doc E j HS HU HR HV HD HI HJ.
  pose proof (C63_validation_enforced_partial _ _ _ _ _ _ _ _ _ _ HS HU HR HV HI HJ) as H.
  inversion H as [| | | | | | | | | | | | | | | | | | | | | | | | | | | | | | | | | |i' cs' ts' j' HA]; subst. rewrite HD in HA.
  inversion HA as [deny def' s' j' HB| | | |]; subst. inversion HB as [| | |def' deny fs' o H1 H2 H3 H4 Q5 Q6 Q7 Q8 Q9]; subst.
  exists o. split; [reflexivity|]. intros f Hf Hs Hfl. split; [intros x Hx; now apply (H3 f x)|].
  intros _ H7 H8 H9 HN. specialize (H4 f Hf Hs Hfl HN). unfold may_miss in H4. now rewrite H7, H8, H9 in H4.
Qed.
Print Assumptions C63_struct_fields_partial.

(** ** An example *)
(** struct Team { members: Vec<Account> }
    struct Account { #[validate(length(min = 1, max = 8))] name: String, #[validate(range(min = 1, max = 10))] level: u8,
      #[garde(inner(length(min = 2)))] tags: Vec<String>, #[validate(contains(pattern = "@"))] mail: Option<String> } *)
Definition jn (z : Z) : option json := Some (JNum (NInt z)).
Definition len (a b : option json) : vattrs := VAttrs (Some (LR a b None)) None None None None false None None.
Definition rng (a b : option json) : vattrs := VAttrs None (Some (LR a b None)) None None None false None None.
Definition has (s : string) : vattrs := VAttrs None None None None (Some s) false None None.
Definition each (a : vattrs) : vattrs := VAttrs None None None None None false None (Some a).
Definition vfld (n : string) (t : rty) (a : vattrs) : field rval := Field n n t false false None false None false a [].
Definition ex_team (n : nat) : item rval :=
  match n with
  | 0 => Item "app" "Team" None false (fun _ _ => Decl false (DStruct false (Struct [fld "members" (TSeq (TAdt 1 [] []))])) [])
  | _ => Item "app" "Account" None false (fun _ _ => Decl false (DStruct false (Struct
           [vfld "name" TStr (len (jn 1) (jn 8)); vfld "level" (TInt U8) (rng (jn 1) (jn 10));
            vfld "tags" (TSeq TStr) (each (len (jn 2) None)); vfld "mail" (TOption TStr) (has "@")])) [])
  end.
Definition ex_team_types : list rty :=
  [TAdt 0 [] []; TAdt 1 [] []; TSeq (TAdt 1 [] []); TSeq TStr; TStr; TOption TStr; TInt U8; TUnit].

Lemma ex_team_closed x w : In x ex_team_types -> In w (asked ex_team x) -> In w ex_team_types.
Proof.
  unfold ex_team_types. cbn [In]. intros HX. repeat (destruct HX as [<-|HX]; [cbn; intuition (subst; auto 20)|]). destruct HX.
Qed.

Lemma ex_team_readable i : i < 2 -> readable ex_team "$defs" (TAdt i [] []).
Proof.
  intros Hi.
  assert (HL : forall u, reach ex_team (TAdt i [] []) u -> In u ex_team_types).
  { intros u. apply reach_list; [destruct i as [|[|i]]; [now left|right; now left|lia]|apply ex_team_closed]. }
  constructor.
  - intros u HR. apply HL in HR. unfold ex_team_types in HR. cbn [In] in HR.
    assert (H0 : readable_type ex_team (wf_meta "$defs") (TAdt 0 [] [])).
    { split; [apply ex_no_meta|]. split; [|plain_keys].
      intros f [<-|[]]. split; [apply ex_no_meta|left; reflexivity]. }
    assert (H1 : readable_type ex_team (wf_meta "$defs") (TAdt 1 [] [])).
    { split; [apply ex_no_meta|]. split; [|plain_keys].
      intros f Hf. cbn in Hf. repeat (destruct Hf as [<-|Hf]; [split; [apply ex_no_meta|right; cbn; repeat split; first [left; reflexivity|right; split; reflexivity]]|]). destruct Hf. }
    repeat (destruct HR as [<-|HR]; [first [exact H0|exact H1|exact I|split; discriminate]|]). destruct HR.
  - intros u HR HI. apply HL in HR. unfold ex_team_types in HR. cbn [In] in HR.
    repeat (destruct HR as [<-|HR]; [first [discriminate HI|split; vm_compute; reflexivity]|]). destruct HR.
  - intros u u' HR HR' HI HE. apply HL in HR. apply HL in HR'. unfold ex_team_types in HR, HR'. cbn [In] in HR, HR'.
    repeat (destruct HR as [<-|HR]; [first [discriminate HI|clear HI; repeat (destruct HR' as [<-|HR']; [first [reflexivity|discriminate HE]|]); destruct HR']|]). destruct HR.
  - intros u HR. apply HL in HR. unfold ex_team_types in HR. cbn [In] in HR.
    assert (G0 : forall u, (forall w, ~ passes ex_team u w) -> Acc (fun w u => passes ex_team u w) u).
    { intros v H. constructor. intros w HW. now apply H in HW. }
    assert (G1 : Acc (fun w u => passes ex_team u w) (TOption TStr)).
    { constructor. intros w HW. change (w = TStr) in HW. subst w. apply G0. intros w HW. exact HW. }
    repeat (destruct HR as [<-|HR]; [first [exact G1|apply G0; no_pass]|]). destruct HR.
Qed.

Definition account (name : string) (level : Z) (tag : string) (mail : json) : json :=
  JObj [("level", JNum (NInt level)); ("mail", mail); ("name", JStr name); ("tags", JArr [JStr tag])].
Definition team (a : json) : json := JObj [("members", JArr [a])].
(** A validator whose regular expressions are plain texts to be found *)
Definition finding (table : list (string * json)) : env :=
  table_env D2020 (fun p s => match index 0 p s with Some _ => true | None => false end) int_formats table.
Example C63_example :
  let doc := de_doc ex_team (TAdt 0 [] []) in
  let E := finding (doc_table doc) in
  readable ex_team "$defs" (TAdt 0 [] []) /\ root_document ex_team de_settings tt 20 (TAdt 0 [] []) doc
  /\ int_validator (s_path de_settings) doc E
  /\ (let j := team (account "ann" 3 "ab" (JStr "a@b")) in instance j /\ valid D2020 E doc j = true)
  /\ valid D2020 E doc (team (account "ann" 3 "ab" JNull)) = true
  /\ valid D2020 E doc (team (account "" 3 "ab" JNull)) = false
  /\ valid D2020 E doc (team (account "ann" 11 "ab" JNull)) = false
  /\ valid D2020 E doc (team (account "ann" 3 "a" JNull)) = false
  /\ valid D2020 E doc (team (account "ann" 3 "ab" (JStr "ab"))) = false.
Proof.
  cbv zeta. split; [apply ex_team_readable; lia|]. split; [eexists; vm_compute; reflexivity|].
  split.
  { split; [|apply table_resolves; vm_compute; reflexivity].
    intros i z _ HF. change (int_formats (int_format i) (JNum (NInt z)) = true) in HF. cbn [int_formats] in HF. rewrite forallb_forall in HF.
    assert (HI : In i all_ints) by (destruct i; cbn; tauto). specialize (HF i HI). now rewrite String.eqb_refl in HF. }
  split; [split; [split|]; vm_compute; reflexivity|]. repeat split; vm_compute; reflexivity.
Qed.

(** ** What is not enforced *)
(** struct User { #[validate(length(min = 1))] name: Name }   struct Name(String)
    Every validator that follows references accepts the empty name. *)
Definition ex_user (n : nat) : item rval :=
  match n with
  | 0 => Item "app" "User" None false (fun _ _ => Decl false (DStruct false (Struct [vfld "name" (TAdt 1 [] []) (len (jn 1) None)])) [])
  | _ => Item "app" "Name" None false (fun _ _ => Decl false (DStruct false (Newtype (fld "0" TStr))) [])
  end.
Theorem C63_reference_refuted :
  let doc := de_doc ex_user (TAdt 0 [] []) in
  root_document ex_user de_settings tt 20 (TAdt 0 [] []) doc
  /\ forall E, resolves E (s_path de_settings) doc ->
       valid D2020 E doc (JObj [("name", JStr "")]) = true /\ satisfies E (len (jn 1) None) (JStr "") = false.
Proof.
  cbv zeta. split; [eexists; vm_compute; reflexivity|]. intros E HE. split; [|vm_compute; reflexivity].
  assert (HR : valid D2020 E (new_ref "#/$defs/Name") (JStr "") = true).
  { rewrite ok_ref. rewrite (HE "/$defs/Name" (type_schema "string")); [apply valid_type_schema| |vm_compute; reflexivity].
    right. exists "Name". split; [split; vm_compute; reflexivity|]. left. vm_compute. reflexivity. }
  clear HE. rewrite ok_ref in HR. destruct E as [r x f]. vm_compute in HR |- *. destruct (r "#/$defs/Name" (JStr "")) as [b p]. cbn in HR. subst b. reflexivity.
Qed.
Print Assumptions C63_reference_refuted.

(** struct Item { #[validate(range(min = -5))] count: u8 }: the attribute replaces the minimum of u8, and a
    validator that does not know the format "uint8" accepts -5, which serde does not read. *)
Definition ex_item : nat -> item rval := one_item (Decl false (DStruct false (Struct [vfld "count" (TInt U8) (rng (jn (-5)) None)])) []).
Theorem C63_range_replaces_bounds_refuted :
  let doc := de_doc ex_item (TAdt 0 [] []) in
  let j := JObj [("count", JNum (NInt (-5)))] in
  root_document ex_item de_settings tt 20 (TAdt 0 [] []) doc /\ instance j
  /\ (forall E, e_fmt E "uint8" (JNum (NInt (-5))) = true -> valid D2020 E doc j = true)
  /\ ~ reads ex_item serde_alone (TAdt 0 [] []) j.
Proof.
  cbv zeta. split; [eexists; vm_compute; reflexivity|]. split; [split; vm_compute; reflexivity|]. split.
  - intros E HF. destruct E as [r x f]. vm_compute in HF |- *. now rewrite HF.
  - intros H. inversion H as [| | | | | | | | | | | | | | | | | | | | | | | | | | | | | | | | | |i' cs' ts' j' HA]; subst. cbn in HA.
    inversion HA as [deny def' s' j' HB| | | |]; subst. inversion HB as [| | |def' deny fs' o H1 H2 H3 H4 Q5 Q6 Q7 Q8 Q9]; subst.
    specialize (H2 _ _ (or_introl eq_refl) eq_refl eq_refl eq_refl). inversion H2; subst. discriminate.
Qed.
Print Assumptions C63_range_replaces_bounds_refuted.
