(** Property theorems C65: the document generated for a type under the deserialize contract accepts
    all JSON that serde reads as a value of the type, and C66: where definitions are put and whether
    subschemas are inlined does not change what is accepted.

    What serde reads is specified in Reads.v ([reads]), JSON Schema validation in Validate.v. *)
From Coq Require Import String Ascii List ZArith Bool Lia.
From Verif Require Import ValidationAttrs ValidationProofs Json JsonFacts Utf8 Encoding SchemaApi Transform Validate ValidateFacts ValidateKw Pointer Private Generate
  GenerateDoc SerValue Types TypesShape Serde Derivation SoundBase SoundStruct SoundTypes SoundAdt Sound ValidateRefs Properties_Types TypeId Properties_Sound
  Properties_Contract Reads ReadsStep ReadsDoc Properties_Reads Properties_Enforce Accepts AcceptsStep AcceptsDoc.
Import ListNotations.
Open Scope string_scope.
Open Scope list_scope.

(** The types reached from [t] are in the fragment of Accepts.v ([accepts_type]), the names of
    definitions are plain text, only forwarding types like Box share an id, and no type is read from
    the same JSON as itself. *)
Record acceptable (items : nat -> item rval) (tok : string) (sets : bool) (t : rty) : Prop := {
  ac_types : forall u, reach items t u -> accepts_type items (wf_meta tok) sets u;
  ac_names : forall u, reach items t u -> type_inline items u = false -> plain_name (type_name items u);
  ac_ids : forall u u', reach items t u -> reach items t u' -> type_inline items u = false -> type_id items u = type_id items u' ->
    unwrap u = unwrap u';
  ac_grounded : forall u, reach items t u -> Acc (fun w u => passes items u w) u }.

(** A validator that rejects no number of a type for its format, knows the two decimal patterns and
    follows the references into [doc] *)
Record fair_validator (text_ok : checks) (path : string) (doc : json) (E : env) : Prop := {
  fv_formats : formats text_ok E;
  fv_patterns : decimal_patterns E;
  fv_numbers : forall n, e_fmt E "float" (JNum n) = true /\ e_fmt E "double" (JNum n) = true;
  fv_refs : resolves E path doc }.

(** Missing: flattened enums and Options, flattened fields of structs that deny unknown fields, [required] on
    an Option, Weak, unit variants with a tag where unknown fields are denied (all but the first two refuted
    below), maps whose keys are enums, Decimal, OsString, CString. *)
Theorem C65_read_json_is_accepted_partial : forall St (items : nat -> item rval) text_ok tok sets (s : settings St) st fuel t doc E j,
  plain_settings tok Deserialize s -> acceptable items tok sets t -> root_document items s st fuel t doc ->
  fair_validator text_ok (s_path s) doc E ->
  input sets j -> reads items text_ok t j -> valid D2020 E doc j = true.
Proof.
  intros St items text_ok tok sets s st fuel t doc E j HS HU [g' HR] HV HI HJ.
  destruct (ps_tok _ _ _ HS) as [more HT]. destruct (ps_fresh _ _ _ HS) as (F1 & F2). destruct (ps_text _ _ _ HS) as [T1 T2].
  eapply (root_accepts items text_ok E (fv_formats _ _ _ _ HV) (fv_patterns _ _ _ _ HV) (fv_numbers _ _ _ _ HV) sets tok F1 F2 s (ps_contract _ _ _ HS)
    (ps_transforms _ _ _ HS) (ps_path _ _ _ HS) T1 T2 more HT t (ac_types _ _ _ _ HU) (ac_names _ _ _ _ HU) (ac_ids _ _ _ _ HU) (ac_grounded _ _ _ _ HU)); eauto.
  apply HV.
Qed.
Print Assumptions C65_read_json_is_accepted_partial.

(** Types in both fragments: the document describes exactly what serde reads. *)
Theorem C65_exactly_what_serde_reads_partial : forall St (items : nat -> item rval) text_ok tok sets (s : settings St) st fuel t doc E j,
  plain_settings tok Deserialize s -> readable items tok t -> acceptable items tok sets t -> root_document items s st fuel t doc ->
  strict_validator text_ok (s_path s) doc E -> fair_validator text_ok (s_path s) doc E ->
  instance j -> input sets j -> (valid D2020 E doc j = true <-> reads items text_ok t j).
Proof.
  intros St items text_ok tok sets s st fuel t doc E j HS HU HA HR HV HF HI HJ. split.
  - eapply C62_accepted_json_is_read_partial; eauto.
  - eapply C65_read_json_is_accepted_partial; eauto.
Qed.
Print Assumptions C65_exactly_what_serde_reads_partial.

(** Two generators for the deserialize contract that differ in the place of definitions, in
    inline_subschemas, in the meta schema or in what they generated before. *)
Theorem C66_settings_do_not_change_what_is_accepted_partial :
  forall St St' (items : nat -> item rval) text_ok tok tok' sets (s : settings St) (s' : settings St') st st' fuel fuel' t doc doc' E E' j,
  plain_settings tok Deserialize s -> plain_settings tok' Deserialize s' ->
  readable items tok t -> readable items tok' t -> acceptable items tok sets t -> acceptable items tok' sets t ->
  root_document items s st fuel t doc -> root_document items s' st' fuel' t doc' ->
  strict_validator text_ok (s_path s) doc E -> fair_validator text_ok (s_path s) doc E ->
  strict_validator text_ok (s_path s') doc' E' -> fair_validator text_ok (s_path s') doc' E' ->
  instance j -> input sets j -> valid D2020 E doc j = valid D2020 E' doc' j.
Proof.
  intros St St' items text_ok tok tok' sets s s' st st' fuel fuel' t doc doc' E E' j H1 H2 H3 H4 H5 H6 H7 H8 H9 H10 H11 H12 HI HJ.
  apply eq_true_iff_eq.
  rewrite (C65_exactly_what_serde_reads_partial St items text_ok tok sets s st fuel t doc E j) by assumption.
  rewrite (C65_exactly_what_serde_reads_partial St' items text_ok tok' sets s' st' fuel' t doc' E' j) by assumption. reflexivity.
Qed.
Print Assumptions C66_settings_do_not_change_what_is_accepted_partial.

(** ** An example *)
(** serde, and a validation that asks what the attributes say *)
Definition serde_and_rules : checks := Checks (fun _ _ => true) (satisfies (checking [])).
Lemma checking_rules doc table : table_of doc table = true -> strict_validator serde_and_rules "/$defs" doc (checking table).
Proof.
  intros H. destruct (checking_strict doc table H) as [[H1 _ _] H2]. constructor; [|exact H2]. constructor; [exact H1|reflexivity|]. intros a j HS. exact HS.
Qed.
Lemma checking_fair doc table : table_of doc table = true -> fair_validator serde_and_rules "/$defs" doc (checking table).
Proof.
  intros H. constructor; [|split; reflexivity| |now apply table_resolves].
  - constructor; [reflexivity| |split; reflexivity| |intros a j HS; exact HS].
    + intros i z HR. change (int_formats (int_format i) (JNum (NInt z)) = true). cbn [int_formats]. apply forallb_forall. intros i' _.
      destruct (String.eqb_spec (int_format i) (int_format i')) as [HE|]; [|reflexivity]. destruct i, i'; try discriminate HE; exact HR.
    + intros k s _. destruct k; try reflexivity. intros []; reflexivity.
  - intros n. destruct n; split; reflexivity.
Qed.

(** The program of C62's example: its types are in both fragments. *)
Lemma ex_orders_acceptable : acceptable ex_orders "$defs" false (TAdt 0 [] []).
Proof.
  destruct ex_orders_readable as [_ H2 H3 H4]. constructor; auto.
  assert (HL : forall u, reach ex_orders (TAdt 0 [] []) u -> In u ex_order_types).
  { intros u. apply reach_list; [now left|apply ex_orders_closed]. }
  assert (HM : wf_meta "$defs" [("description", JStr "A node")] /\ wf_meta "$defs" [("description", JStr "Round")]) by (apply ex_meta; discriminate).
  intros u HR. apply HL in HR. unfold ex_order_types in HR. cbn [In] in HR.
  assert (H0 : accepts_type ex_orders (wf_meta "$defs") false (TAdt 0 [] [])).
  { split; [apply HM|]. split.
    - intros f Hf. cbn in Hf. repeat (destruct Hf as [<-|Hf]; [split; [apply ex_no_meta|discriminate]|]). destruct Hf.
    - cbn. repeat constructor; cbn; discriminate. }
  assert (H1 : accepts_type ex_orders (wf_meta "$defs") false (TAdt 1 [] [])).
  { split; [apply ex_no_meta|]. split; [discriminate|]. split; [|right; repeat constructor; cbn; intuition discriminate].
    intros v Hv. cbn in Hv. destruct Hv as [<-|[<-|[<-|[]]]]; (split; [first [apply ex_no_meta|apply HM]|]); (split; [|intros _; exact I]).
    - exact I.
    - split; [intros f [<-|[]]; split; [apply ex_no_meta|discriminate]|]. cbn. repeat constructor.
    - split; [reflexivity|split; [apply ex_no_meta|discriminate]]. }
  repeat (destruct HR as [<-|HR]; [first [exact H0|exact H1|exact I]|]). destruct HR.
Qed.

(** struct Job { limit: Duration, result: Result<u8, String>, seats: HashMap<u8, HashSet<char>>, span: Range<f64>,
      #[serde(flatten)] at: Position, shape: Shape }
    struct Position { line: u32, #[schemars(range(max = 80))] column: u8 }        struct Wheel { radius: u8 }
    #[serde(tag = "kind")] enum Shape { Round(Wheel), Nothing } *)
Definition ex_jobs (n : nat) : item rval :=
  match n with
  | 0 => struct_of "Job" [fld "limit" TDuration; fld "result" (TResult (TInt U8) TStr); fld "seats" (TMap (TInt U8) (TSet TChar));
                          fld "span" (TRange TF64); flat "at" (TAdt 1 [] []); fld "shape" (TAdt 2 [] [])]
  | 1 => struct_of "Position" [fld "line" (TInt U32); vfld "column" (TInt U8) (rng None (jn 80))]
  | 2 => Item "app" "Shape" None false (fun _ _ => Decl false (DEnum (Internal "kind")
           [Variant "Round" "Round" false false false (Newtype (fld "0" (TAdt 3 [] []))) [];
            Variant "Nothing" "Nothing" false false false Unit []]) [])
  | _ => struct_of "Wheel" [fld "radius" (TInt U8)]
  end.
Definition ex_job_types : list rty :=
  [TAdt 0 [] []; TAdt 1 [] []; TAdt 2 [] []; TAdt 3 [] []; TDuration; TResult (TInt U8) TStr; TMap (TInt U8) (TSet TChar); TSet TChar; TChar;
   TRange TF64; TF64; TInt U8; TInt U32; TInt U64; TStr; TUnit].
Lemma ex_jobs_closed x w : In x ex_job_types -> In w (asked ex_jobs x) -> In w ex_job_types.
Proof.
  unfold ex_job_types. cbn [In]. intros HX. repeat (destruct HX as [<-|HX]; [cbn; intuition (subst; auto 20)|]). destruct HX.
Qed.
Lemma ex_open n fs : d_data (it_decl (ex_jobs n) [] []) = DStruct false (Struct fs) -> d_deny (it_decl (ex_jobs n) [] []) = false ->
  (forall f, In f fs -> f_flatten f = false) -> open_struct ex_jobs (TAdt n [] []).
Proof.
  intros H1 H2 H3. exists n, [], [], false, fs. split; [reflexivity|]. split; [exact H1|]. split; [exact H2|].
  intros f Hf HX. unfold taken in Hf. apply filter_In in Hf as [Hf _]. rewrite H3 in HX by exact Hf. discriminate.
Qed.
Lemma ex_jobs_acceptable : acceptable ex_jobs "$defs" true (TAdt 0 [] []).
Proof.
  assert (HL : forall u, reach ex_jobs (TAdt 0 [] []) u -> In u ex_job_types).
  { intros u. apply reach_list; [now left|apply ex_jobs_closed]. }
  constructor.
  - assert (HP : forall (f : field rval), f_meta f = [] -> f_required f = false -> accepts_field (wf_meta "$defs") f).
    { intros f H1 H2. split; [rewrite H1; apply ex_no_meta|]. rewrite H2. discriminate. }
    assert (HO1 : open_struct ex_jobs (TAdt 1 [] [])) by (eapply ex_open; [reflexivity..|]; cbn; intuition (subst; reflexivity)).
    assert (HO3 : open_struct ex_jobs (TAdt 3 [] [])) by (eapply ex_open; [reflexivity..|]; cbn; intuition (subst; reflexivity)).
    assert (H0 : accepts_type ex_jobs (wf_meta "$defs") true (TAdt 0 [] [])).
    { split; [apply ex_no_meta|]. split.
      - intros f Hf. cbn in Hf. repeat (destruct Hf as [<-|Hf]; [first [now apply HP|split; [reflexivity|split; [reflexivity|now left]]]|]). destruct Hf.
      - cbn. repeat constructor; cbn; discriminate. }
    assert (H1 : accepts_type ex_jobs (wf_meta "$defs") true (TAdt 1 [] [])).
    { split; [apply ex_no_meta|]. split; [|cbn; repeat constructor; discriminate]. intros f Hf. cbn in Hf. repeat (destruct Hf as [<-|Hf]; [now apply HP|]). destruct Hf. }
    assert (H3 : accepts_type ex_jobs (wf_meta "$defs") true (TAdt 3 [] [])).
    { split; [apply ex_no_meta|]. split; [|cbn; repeat constructor; discriminate]. intros f Hf. cbn in Hf. repeat (destruct Hf as [<-|Hf]; [now apply HP|]). destruct Hf. }
    assert (H2 : accepts_type ex_jobs (wf_meta "$defs") true (TAdt 2 [] [])).
    { split; [apply ex_no_meta|]. split; [discriminate|]. split; [|right; repeat constructor; cbn; intuition discriminate].
      intros v Hv. cbn in Hv. destruct Hv as [<-|[<-|[]]]; (split; [apply ex_no_meta|]).
      - split; [split; [reflexivity|now apply HP]|]. intros _. split; [reflexivity|]. split; [exact HO3|]. intros HT.
        change (takes_key ex_jobs (TAdt 3 [] []) "kind") in HT.
        inversion HT as [i cs ts def fs f k HD Hf Hs Hk| |]; subst. cbn in HD. injection HD as <- <-. cbn in Hf. destruct Hf as [<-|[]]. inversion Hk; discriminate.
      - split; [exact I|reflexivity]. }
    intros u HR. apply HL in HR. unfold ex_job_types in HR. cbn [In] in HR.
    repeat (destruct HR as [<-|HR]; [first [exact H0|exact H1|exact H2|exact H3|exact I|reflexivity]|]). destruct HR.
  - intros u HR HI. apply HL in HR. unfold ex_job_types in HR. cbn [In] in HR.
    repeat (destruct HR as [<-|HR]; [first [discriminate HI|split; vm_compute; reflexivity]|]). destruct HR.
  - intros u u' HR HR' HI HE. apply HL in HR. apply HL in HR'. unfold ex_job_types in HR, HR'. cbn [In] in HR, HR'.
    repeat (destruct HR as [<-|HR]; [first [discriminate HI|clear HI; repeat (destruct HR' as [<-|HR']; [first [reflexivity|discriminate HE]|]); destruct HR']|]). destruct HR.
  - intros u HR. apply HL in HR. unfold ex_job_types in HR. cbn [In] in HR.
    assert (G0 : forall u, (forall w, ~ passes ex_jobs u w) -> Acc (fun w u => passes ex_jobs u w) u).
    { intros v H. constructor. intros w HW. now apply H in HW. }
    assert (G1 : Acc (fun w u => passes ex_jobs u w) (TAdt 1 [] [])) by (apply G0; no_pass).
    assert (G3 : Acc (fun w u => passes ex_jobs u w) (TAdt 3 [] [])) by (apply G0; no_pass).
    assert (G2 : Acc (fun w u => passes ex_jobs u w) (TAdt 2 [] [])).
    { constructor. intros w (v & Hv & _ & HP). cbn in Hv. destruct Hv as [<-|[<-|[]]]; [|destruct HP]. change (w = TAdt 3 [] []) in HP. now subst w. }
    assert (G4 : Acc (fun w u => passes ex_jobs u w) (TAdt 0 [] [])).
    { constructor. intros w (f & Hf & HX & ->). cbn in Hf. repeat (destruct Hf as [<-|Hf]; [first [discriminate HX|exact G1]|]). destruct Hf. }
    repeat (destruct HR as [<-|HR]; [first [exact G4|exact G2|apply G0; no_pass]|]). destruct HR.
Qed.

(** The hypotheses are met. A job that serde reads, and jobs that the document rejects: a column above
    80, a set with a repeated element, a key that is not a number. *)
Definition a_job (col : Z) (seats : map_t) (shape : json) : json :=
  JObj [("column", JNum (NInt col)); ("limit", JObj [("nanos", JNum (NInt 5)); ("secs", JNum (NInt 1))]); ("line", JNum (NInt 3));
        ("result", JObj [("Err", JStr "x")]); ("seats", JObj seats); ("shape", shape);
        ("span", JObj [("end", JNum (NInt 2)); ("start", JNum (NFlt 1 (-1)))])].
Definition job_shape : json := JObj [("kind", JStr "Round"); ("radius", JNum (NInt 9))].

Example C65_example :
  let doc := de_doc ex_jobs (TAdt 0 [] []) in
  let E := checking (doc_table doc) in
  let j := a_job 7 [("12", JArr [JStr "a"; JStr "b"])] job_shape in
  plain_settings "$defs" Deserialize de_settings /\ acceptable ex_jobs "$defs" true (TAdt 0 [] [])
  /\ root_document ex_jobs de_settings tt 20 (TAdt 0 [] []) doc
  /\ fair_validator serde_and_rules (s_path de_settings) doc E
  /\ input true j /\ valid D2020 E doc j = true
  /\ valid D2020 E doc (a_job 81 [("12", JArr [JStr "a"; JStr "b"])] job_shape) = false
  /\ valid D2020 E doc (a_job 7 [("12", JArr [JStr "a"; JStr "a"])] job_shape) = false
  /\ valid D2020 E doc (a_job 7 [("x", JArr [JStr "a"; JStr "b"])] job_shape) = false.
Proof.
  cbv zeta. split; [apply de_plain|]. split; [apply ex_jobs_acceptable|]. split; [eexists; vm_compute; reflexivity|].
  split; [apply checking_fair; vm_compute; reflexivity|]. split; [split; [|intros _]; vm_compute; reflexivity|].
  repeat split; vm_compute; reflexivity.
Qed.

Ltac field_cases := let f := fresh "f" in let x := fresh "x" in let Hf := fresh "Hf" in
  intros f x Hf; cbn in Hf; repeat (destruct Hf as [<-|Hf]; [cbn [f_skip_de f_flatten fld flat vfld f_de f_ty]; let H1 := fresh in let H2 := fresh in let H3 := fresh in
    intros H1 H2 H3; try discriminate H2; try (vm_compute in H3; injection H3 as <-)|]); try (destruct Hf).
Example C65_example_read : reads ex_jobs serde_and_rules (TAdt 0 [] []) (a_job 7 [("12", JArr [JStr "a"; JStr "b"])] job_shape).
Proof.
  assert (HT : forall n fs k, d_data (it_decl (ex_jobs n) [] []) = DStruct false (Struct fs) -> (forall f, In f fs -> f_flatten f = false) ->
    takes_key ex_jobs (TAdt n [] []) k -> In k (map f_de fs)).
  { intros n fs k HD HF H. inversion H as [i cs' ts' def' fs' f k' HD' Hf Hs Hk| |]; subst. rewrite HD in HD'. injection HD' as <- <-.
    inversion Hk as [f' HFl|f' k' HFl _]; subst; [now apply in_map|]. rewrite HF in HFl by assumption. discriminate. }
  assert (HF : forall k, field_takes ex_jobs (flat "at" (TAdt 1 [] [])) k -> In k ["line"; "column"]).
  { intros k H. inversion H as [f' HFl|f' k' HFl HX]; subst; [discriminate HFl|]. cbn [strip_option flat f_ty] in HX.
    eapply HT in HX; [|reflexivity|cbn; intuition (subst; reflexivity)]. exact HX. }
  assert (HK : forall (f : field rval) k, f_flatten f = false -> field_takes ex_jobs f k -> k = f_de f).
  { intros f k HX H. inversion H as [f' HFl|f' k' HFl _]; subst; [reflexivity|congruence]. }
  constructor. cbn. constructor. constructor.
  - cbn. repeat constructor; cbn; intros k H1 H2; first [apply HF in H1|apply HK in H1; [|reflexivity]]; first [apply HF in H2|apply HK in H2; [|reflexivity]]; cbn in H1, H2; intuition congruence.
  - field_cases.
    + econstructor; [|reflexivity..]. intros k x [[= <- <-]|[[= <- <-]|[]]]; in_names.
    + apply RErr. constructor.
    + constructor; intros n x [[= <- <-]|[]]; [change "12" with (show_int 12); now constructor|]. repeat constructor.
    + econstructor; [|reflexivity|reflexivity|constructor|constructor]. intros k x [[= <- <-]|[[= <- <-]|[]]]; in_names.
    + constructor. cbn. econstructor; [now left|reflexivity|right; right; intros w Hw; cbn in Hw; intuition (subst; try reflexivity; discriminate)|].
      eapply RvInternalNewtype; try reflexivity. constructor. cbn. constructor. constructor; try (intros; discriminate).
      * cbn. repeat constructor.
      * field_cases. now constructor.
      * field_cases. reflexivity.
      * intros f [<-|[]] _ _ HX0. discriminate HX0.
      * intros f [<-|[]] _ HX0. discriminate HX0.
      * intros f [<-|[]] _ HX0. discriminate HX0.
      * intros before f after k t n x HX0. destruct before as [|? [|]]; try discriminate HX0. injection HX0 as <- <-. discriminate.
      * intros before f after k t n x HX0. destruct before as [|? [|]]; try discriminate HX0. injection HX0 as <- <-. discriminate.
  - field_cases; reflexivity.
  - intros f Hf. cbn in Hf. repeat (destruct Hf as [<-|Hf]; [try (intros _ _ HX0; discriminate HX0); try (intros _ HX0; discriminate HX0)|]). destruct Hf.
  - intros f Hf. cbn in Hf. repeat (destruct Hf as [<-|Hf]; [reflexivity|]). destruct Hf.
  - intros f Hf. cbn in Hf. repeat (destruct Hf as [<-|Hf]; [try (intros _ HX0; discriminate HX0); try intros _ _|]); [|destruct Hf].
    eapply RfStruct; [reflexivity..|]. constructor. cbn. constructor. constructor; try (intros; discriminate).
    + cbn. repeat constructor; cbn; intros k H1 H2; first [apply HF in H1|apply HK in H1; [|reflexivity]]; first [apply HF in H2|apply HK in H2; [|reflexivity]]; cbn in H1, H2; intuition congruence.
    + field_cases; now constructor.
    + field_cases; reflexivity.
    + intros f Hf. cbn in Hf. repeat (destruct Hf as [<-|Hf]; [intros _ _ HX0; discriminate HX0|]). destruct Hf.
    + intros f Hf. cbn in Hf. repeat (destruct Hf as [<-|Hf]; [intros _ HX0; discriminate HX0|]). destruct Hf.
    + intros f Hf. cbn in Hf. repeat (destruct Hf as [<-|Hf]; [intros _ HX0; discriminate HX0|]). destruct Hf.
    + intros before f after k t n x HX0. repeat (destruct before as [|? before]; [injection HX0; intros; subst; discriminate|try discriminate HX0]).
    + intros before f after k t n x HX0. repeat (destruct before as [|? before]; [injection HX0; intros; subst; discriminate|try discriminate HX0]).
  - intros before f after k t n x HX0. repeat (destruct before as [|? before]; [injection HX0; intros; subst; discriminate|try discriminate HX0]).
  - intros before f after k t n x HX0. repeat (destruct before as [|? before]; [injection HX0; intros; subst; discriminate|try discriminate HX0]).
  - discriminate.
Qed.

(** The program of C62's example with and without inline_subschemas and a meta schema: the documents differ, *)
Definition inline_settings : settings unit := Settings "/$defs" None [] true Deserialize.
Definition inline_doc (items : nat -> item rval) (t : rty) : json :=
  match root_schema_for (info items) (json_schema (info items) 20) t (new_gen inline_settings tt) with Some (d, _) => d | None => JNull end.
Lemma inline_plain : plain_settings "$defs" Deserialize inline_settings.
Proof. destruct de_plain. now constructor. Qed.
Example C66_example :
  let doc := de_doc ex_orders (TAdt 0 [] []) in
  let doc' := inline_doc ex_orders (TAdt 0 [] []) in
  let E := checking (doc_table doc) in
  let E' := checking (doc_table doc') in
  let j := an_order 7 (JNum (NInt 3)) 5 (an_order 8 (JObj [("Closed", JObj [("by", JStr "x")])]) (-4) JNull) in
  let no := an_order 7 (JNum (NInt 0)) 5 JNull in
  plain_settings "$defs" Deserialize de_settings /\ plain_settings "$defs" Deserialize inline_settings
  /\ readable ex_orders "$defs" (TAdt 0 [] []) /\ acceptable ex_orders "$defs" false (TAdt 0 [] [])
  /\ root_document ex_orders de_settings tt 20 (TAdt 0 [] []) doc /\ root_document ex_orders inline_settings tt 20 (TAdt 0 [] []) doc'
  /\ strict_validator serde_and_rules "/$defs" doc E /\ fair_validator serde_and_rules "/$defs" doc E
  /\ strict_validator serde_and_rules "/$defs" doc' E' /\ fair_validator serde_and_rules "/$defs" doc' E'
  /\ instance j /\ input false j /\ valid D2020 E doc j = true /\ valid D2020 E' doc' j = true
  /\ instance no /\ input false no /\ valid D2020 E doc no = false /\ valid D2020 E' doc' no = false
  /\ s_get "$defs" doc <> None /\ s_get "$defs" doc' = None.
Proof.
  cbv zeta. split; [apply de_plain|]. split; [apply inline_plain|]. split; [apply ex_orders_readable|]. split; [apply ex_orders_acceptable|].
  split; [eexists; vm_compute; reflexivity|]. split; [eexists; vm_compute; reflexivity|].
  split; [apply checking_rules; vm_compute; reflexivity|]. split; [apply checking_fair; vm_compute; reflexivity|].
  split; [apply checking_rules; vm_compute; reflexivity|]. split; [apply checking_fair; vm_compute; reflexivity|].
  split; [split; vm_compute; reflexivity|]. split; [split; [|discriminate]; vm_compute; reflexivity|]. split; [vm_compute; reflexivity|]. split; [vm_compute; reflexivity|].
  split; [split; vm_compute; reflexivity|]. split; [split; [|discriminate]; vm_compute; reflexivity|]. split; [vm_compute; reflexivity|]. split; [vm_compute; reflexivity|].
  split; [vm_compute; discriminate|vm_compute; reflexivity].
Qed.

(** ** What serde reads although the documents reject it *)
(** A proper JSON value that every validator rejects: *)
Definition refused (items : nat -> item rval) (t : rty) (j : json) : Prop :=
  wf j = true /\ root_document items de_settings tt 20 t (de_doc items t)
  /\ (forall E, valid D2020 E (de_doc items t) j = false) /\ reads items serde_alone t j.
Ltac refuse := split; [reflexivity|split; [eexists; vm_compute; reflexivity|split; [intros E; vm_compute; reflexivity|]]].

(** null as a Weak<bool> (the schema is that of bool), *)
Theorem C65_weak_null_refuted : refused no_items_r (TWeak TBool) JNull.
Proof. refuse. apply RWeak, RNone. Qed.
Print Assumptions C65_weak_null_refuted.

(** an array with a repeated element as a HashSet<bool>, *)
Theorem C65_repeated_element_refuted : refused no_items_r (TSet TBool) (JArr [JBool true; JBool true]).
Proof. refuse. repeat constructor. Qed.
Print Assumptions C65_repeated_element_refuted.

(** a missing field and a null where #[schemars(required)] is on an Option, *)
Definition ex_needed : nat -> item rval :=
  fun _ => struct_of "T" [Field "a" "a" (TOption TBool) false false None false None false only_required []].
Theorem C65_required_option_refuted :
  refused ex_needed (TAdt 0 [] []) (JObj []) /\ refused ex_needed (TAdt 0 [] []) (JObj [("a", JNull)]).
Proof.
  split; refuse; constructor; cbn; constructor; constructor; try discriminate.
  all: try (cbn; repeat constructor).
  all: try (intros f x [<-|[]] _ _ H; vm_compute in H; try discriminate H; injection H as <-; first [reflexivity|apply RNone]).
  all: try (intros f [<-|[]] _ H; discriminate H).
  all: try (intros f [<-|[]] _ _ _; reflexivity).
  all: intros before f after k t n x H; repeat (destruct before as [|? before]; [injection H; intros; subst; discriminate|try discriminate H]).
Qed.
Print Assumptions C65_required_option_refuted.

(** struct T { #[serde(flatten)] note: Option<Note> } struct Note { text: bool } from a text of another
    type, which serde reads as None, *)
Definition ex_flat_option (n : nat) : item rval :=
  match n with
  | 0 => struct_of "T" [flat "note" (TOption (TAdt 1 [] []))]
  | _ => struct_of "Note" [fld "text" TBool]
  end.
Theorem C65_flattened_option_refuted : refused ex_flat_option (TAdt 0 [] []) (JObj [("text", JNum (NInt 5))]).
Proof.
  refuse; constructor; cbn; constructor; constructor; try discriminate.
  all: try (cbn; repeat constructor; fail).
  all: try (intros f x [<-|[]] _ H; discriminate H).
  all: try (intros f [<-|[]] _ H; discriminate H).
  all: try (intros f [<-|[]] _ _; first [reflexivity|constructor]).
  all: intros before f after k t n x H; repeat (destruct before as [|? before]; [injection H; intros; subst; discriminate|try discriminate H]).
Qed.
Print Assumptions C65_flattened_option_refuted.

(** #[serde(tag = "t", content = "c", deny_unknown_fields)] enum T { A } from an object with null contents, *)
Definition ex_adjacent_deny : nat -> item rval :=
  one_item (Decl true (DEnum (Adjacent "t" "c") [Variant "A" "A" false false false Unit []]) []).
Theorem C65_adjacent_null_refuted : refused ex_adjacent_deny (TAdt 0 [] []) (JObj [("c", JNull); ("t", JStr "A")]).
Proof.
  refuse; constructor; cbn. econstructor; [now left|reflexivity|right; right; intros w Hw; cbn in Hw; intuition (subst; reflexivity)|].
  apply RvAdjacentUnit; try reflexivity; [now right|]. intros _ k x [[= <- <-]|[[= <- <-]|[]]]; auto.
Qed.
Print Assumptions C65_adjacent_null_refuted.

(** and #[serde(tag = "t", deny_unknown_fields)] enum T { A } from an object with a further key. *)
Definition ex_internal_deny : nat -> item rval :=
  one_item (Decl true (DEnum (Internal "t") [Variant "A" "A" false false false Unit []]) []).
Theorem C65_internal_unit_refuted : refused ex_internal_deny (TAdt 0 [] []) (JObj [("t", JStr "A"); ("x", JNull)]).
Proof.
  refuse; constructor; cbn. econstructor; [now left|reflexivity|right; right; intros w Hw; cbn in Hw; intuition (subst; reflexivity)|].
  now apply RvInternalUnit.
Qed.
Print Assumptions C65_internal_unit_refuted.

(** Names given with #[serde(alias = "...")]: serde reads a key that is such a name as the field's own. *)
Definition unalias (aliases : list (string * string)) (j : json) : json :=
  match j with
  | JObj m => obj (map (fun kv => match kv with (k, x) => (match mget k aliases with Some n => n | None => k end, x) end) m)
  | _ => j
  end.
(** struct T { #[serde(alias = "old")] new: bool }: serde reads {"old": true}, and the derive macro does not
    look at the attribute. *)
Definition ex_alias : nat -> item rval := fun _ => struct_of "T" [fld "new" TBool].
Theorem C65_alias_refuted : exists aliases j doc,
  root_document ex_alias de_settings tt 20 (TAdt 0 [] []) doc
  /\ reads ex_alias all_texts (TAdt 0 [] []) (unalias aliases j) /\ forall E, valid D2020 E doc j = false.
Proof.
  exists [("old", "new")], (JObj [("old", JBool true)]). eexists. split; [eexists; vm_compute; reflexivity|]. split; [|intros E; vm_compute; reflexivity].
  change (unalias _ _) with (JObj [("new", JBool true)]). constructor; cbn; constructor; constructor; try discriminate.
  all: try (cbn; repeat constructor; fail).
  all: try (intros f x [<-|[]] _ _ H; vm_compute in H; try discriminate H; injection H as <-; constructor).
  all: try (intros f [<-|[]] _ H; discriminate H).
  all: try (intros f [<-|[]] _ _ H; vm_compute in H; discriminate H).
  all: intros before f after k t n x H; repeat (destruct before as [|? before]; [injection H; intros; subst; discriminate|try discriminate H]).
Qed.
Print Assumptions C65_alias_refuted.

(** ** Where settings do change what is accepted *)
(** struct T { #[schemars(length(min = 3))] name: Name } struct Name(String): the attribute has an effect
    only where the schema of the field is not a reference. *)
Definition ex_named (n : nat) : item rval :=
  match n with
  | 0 => struct_of "T" [vfld "name" (TAdt 1 [] []) (len (jn 3) None)]
  | _ => Item "app" "Name" None false (fun _ _ => Decl false (DStruct false (Newtype (fld "0" TStr))) [])
  end.
Theorem C66_validation_attributes_refuted :
  let t := TAdt 0 [] [] in
  let j := JObj [("name", JStr "ab")] in
  plain_settings "$defs" Deserialize de_settings /\ plain_settings "$defs" Deserialize inline_settings
  /\ root_document ex_named de_settings tt 20 t (de_doc ex_named t) /\ root_document ex_named inline_settings tt 20 t (inline_doc ex_named t)
  /\ (forall E, resolves E "/$defs" (de_doc ex_named t) -> valid D2020 E (de_doc ex_named t) j = true)
  /\ (forall E, valid D2020 E (inline_doc ex_named t) j = false).
Proof.
  cbv zeta. split; [apply de_plain|]. split; [apply inline_plain|]. split; [eexists; vm_compute; reflexivity|]. split; [eexists; vm_compute; reflexivity|]. split.
  - intros E HE. assert (HD : ok (e_ref E "#/$defs/Name" (JStr "ab")) = true).
    { rewrite (HE "/$defs/Name" (type_schema "string") (JStr "ab")); [apply valid_type_schema| |vm_compute; reflexivity].
      right. exists "Name". split; [split; vm_compute; reflexivity|]. left. vm_compute. reflexivity. }
    clear HE. destruct E as [r x f]. cbn [e_ref] in HD. vm_compute. vm_compute in HD. now rewrite HD.
  - intros E. vm_compute. reflexivity.
Qed.
Print Assumptions C66_validation_attributes_refuted.
