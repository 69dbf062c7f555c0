(** Property theorem C52: the document generated with the default contract (for deserialization) also
    accepts what serde_json writes, for the types that are written as they are read.

    What that means for a declaration is stated by [as_written] (SoundStruct.v), [wf_style], [wf_variant]
    and [wf_enum] (SoundAdt.v), whose conditions for [Deserialize] ask that fields and variants have one
    name, that they are skipped in both directions or in none, and that a field which may be left out
    may be missing. The last theorems show that none of the three can be dropped. *)
From Coq Require Import String Ascii List ZArith Bool Lia.
From Verif Require Import ValidationAttrs Json JsonFacts SchemaApi Validate Pointer Generate GenerateDoc SerValue Types Serde Sound SoundBase SoundStruct
  SoundAdt Properties_Sound.
Import ListNotations.
Open Scope string_scope.
Open Scope list_scope.

Theorem C52_default_contract_accepts_partial : forall St (items : nat -> item rval) text_ok tok (s : settings St) st fuel t doc E v j,
  plain_settings tok Deserialize s -> supported items tok Deserialize t -> root_document items s st fuel t doc ->
  validator text_ok (s_path s) doc E ->
  value_json items text_ok true t v = Some j -> valid D2020 E doc j = true.
Proof. intros. eapply values_validate; eauto. Qed.
Print Assumptions C52_default_contract_accepts_partial.

(** [SchemaSettings::default()] *)
Definition de_settings : settings unit := Settings "/$defs" (Some "https://json-schema.org/draft/2020-12/schema") [] false Deserialize.
Lemma de_plain : plain_settings "$defs" Deserialize de_settings.
Proof. destruct ex_plain. now constructor. Qed.
Definition de_doc (items : nat -> item rval) (t : rty) : json :=
  match root_schema_for (info items) (json_schema (info items) 20) t (new_gen de_settings tt) with Some (d, _) => d | None => JNull end.

(** The program of Properties_Sound.v; the documents of the two contracts differ ("next" is required for
    serialization only). *)
Example C52_example :
  let doc := de_doc ex_prog (TAdt 0 [] []) in
  let E := the_validator (doc_table doc) in
  plain_settings "$defs" Deserialize de_settings /\ supported ex_prog "$defs" Deserialize (TAdt 0 [] [])
  /\ root_document ex_prog de_settings tt 20 (TAdt 0 [] []) doc
  /\ validator all_texts (s_path de_settings) doc E
  /\ doc <> doc_of ex_prog (TAdt 0 [] [])
  /\ (exists j, value_json ex_prog all_texts true (TAdt 0 [] [])
        (RSeq [RInt 7; RSome (RSeq [RInt 8; RNone; RNone; RVariant 0 []]); RSome (RSeq [RInt 1; RInt 2]); RVariant 2 [RSeq [RInt 3; RInt 4]]]) = Some j
      /\ valid D2020 E doc j = true)
  /\ valid D2020 E doc (JObj [("shape", JObj [("kind", JStr "Empty")]); ("value", JNum (NInt 8))]) = true
  /\ valid D2020 E doc (JObj [("value", JNum (NInt 8))]) = false.
Proof.
  cbv zeta. split; [apply de_plain|]. split; [apply ex_supported; cbn; auto|].
  split; [eexists; vm_compute; reflexivity|]. split; [apply table_validator; vm_compute; reflexivity|].
  split. { intros H. assert (HB : json_eqb (de_doc ex_prog (TAdt 0 [] [])) (doc_of ex_prog (TAdt 0 [] [])) = true) by (rewrite H; vm_compute; reflexivity). vm_compute in HB. discriminate HB. }
  split; [eexists; split; vm_compute; reflexivity|]. split; vm_compute; reflexivity.
Qed.

(** A field that may be left out, #[serde(skip_serializing_if = "...", default)], is not required. *)
Definition optional_struct : nat -> item rval :=
  one_item (Decl false (DStruct false (Struct [Field "a" "a" (TInt U8) false false (Some (fun _ => true)) true None false no_vattrs []])) []).
Example C52_example_missing :
  as_written Deserialize false (Field "a" "a" (TInt U8) false false (Some (fun _ => true)) true None false no_vattrs [])
  /\ exists j, value_json optional_struct all_texts true (TAdt 0 [] []) (RSeq [RInt 1]) = Some j
     /\ j = JObj [] /\ valid D2020 (the_validator []) (de_doc optional_struct (TAdt 0 [] [])) j = true.
Proof. split; [split; auto|]. exists (JObj []). repeat split; vm_compute; reflexivity. Qed.

(** Like [rejected] (Properties_Sound.v), for the default contract, of a value that the document for the
    serialize contract accepts *)
Definition rejected_by_default (items : nat -> item rval) (t : rty) (v : rval) (j : json) : Prop :=
  value_json items all_texts true t v = Some j
  /\ root_document items de_settings tt 20 t (de_doc items t)
  /\ (forall E, validator all_texts (s_path de_settings) (de_doc items t) E -> valid D2020 E (de_doc items t) j = false)
  /\ root_document items ex_settings tt 20 t (doc_of items t)
  /\ (forall E, validator all_texts (s_path de_settings) (doc_of items t) E -> valid D2020 E (doc_of items t) j = true).
Ltac reject_by_default :=
  split; [vm_compute; reflexivity|split; [eexists; vm_compute; reflexivity|split; [intros E _; vm_compute; reflexivity|
    split; [eexists; vm_compute; reflexivity|intros E _; vm_compute; reflexivity]]]].

(** struct T { #[serde(rename(serialize = "a", deserialize = "b"))] x: String } *)
Theorem C52_two_names_refuted :
  rejected_by_default (one_item (Decl false (DStruct false (Struct [Field "a" "b" TStr false false None false None false no_vattrs []])) []))
    (TAdt 0 [] []) (RSeq [RStr "x"]) (JObj [("a", JStr "x")]).
Proof. reject_by_default. Qed.
Print Assumptions C52_two_names_refuted.
(** struct T { #[serde(skip_serializing_if = "...")] a: String }: the field is required for
    deserialization, but not always written. *)
Theorem C52_left_out_refuted :
  rejected_by_default (one_item (Decl false (DStruct false (Struct [skipped_if_true (fld "a" TStr)])) []))
    (TAdt 0 [] []) (RSeq [RStr "x"]) (JObj []).
Proof. reject_by_default. Qed.
Print Assumptions C52_left_out_refuted.
(** #[serde(deny_unknown_fields)] struct T { #[serde(skip_deserializing)] a: String } *)
Theorem C52_only_written_refuted :
  rejected_by_default (one_item (Decl true (DStruct false (Struct [Field "a" "a" TStr false true None false None false no_vattrs []])) []))
    (TAdt 0 [] []) (RSeq [RStr "x"]) (JObj [("a", JStr "x")]).
Proof. reject_by_default. Qed.
Print Assumptions C52_only_written_refuted.
(** enum T { A, #[serde(skip_deserializing)] B } *)
Theorem C52_only_written_variant_refuted :
  rejected_by_default (one_item (Decl false (DEnum External [Variant "A" "A" false false false Unit []; Variant "B" "B" false true false Unit []]) []))
    (TAdt 0 [] []) (RVariant 1 []) (JStr "B").
Proof. reject_by_default. Qed.
Print Assumptions C52_only_written_variant_refuted.
