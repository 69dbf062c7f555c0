(** Property theorems C01-C07 and C18 (statements only; proofs are in the *Proofs files). *)
From Coq Require Import String Ascii List ZArith NArith Bool Lia Sorting.Sorted.
From Verif Require Import Json JsonFacts Utf8 Encoding EncodingProofs Pointer PointerProofs
  SchemaApi SchemaSer SchemaSpec SchemaProofs.
Import ListNotations.
Open Scope string_scope.

(** C01. Partial: the full claim (every name) is false, see the [_refuted] theorems below. It
    holds for every name without a byte below 0x10 and every definitions path of the form
    "/a/b/…" without '%'. [ref_string path name] is the "$ref" built by subschema_for. *)
Theorem C01_ref_resolves_partial : forall path name m defs d,
  good_path path ->
  utf8_valid (definitions_path_stripped path) = true ->
  no_pct (definitions_path_stripped path) = true ->
  utf8_valid name = true -> sforall not_control name = true ->
  NoDup (map fst defs) ->
  room (path_tokens path) m ->
  mget name defs = Some d ->
  s_pointer (JObj (add_definitions path m defs)) (ref_string path name) = Some d.
Proof. exact ref_resolves. Qed.
Print Assumptions C01_ref_resolves_partial.

(** The hypotheses are met by the default path and an awkward name. *)
Example C01_example :
  s_pointer (JObj (add_definitions "#/$defs/" [("type", JStr "object")]
                     [("A", JBool true); ("a/~b %41 é", JBool false)]))
            (ref_string "#/$defs/" "a/~b %41 é") = Some (JBool false)
  /\ good_path "#/$defs/" /\ room (path_tokens "#/$defs/") [("type", JStr "object")]
  /\ utf8_valid "a/~b %41 é" = true /\ sforall not_control "a/~b %41 é" = true.
Proof.
  repeat split; try reflexivity. exists "$defs". split; [reflexivity|discriminate].
Qed.

(** Distinct names give distinct references (every name). *)
Theorem C01_encoding_injective : forall n1 n2, encode_ref_name n1 = encode_ref_name n2 -> n1 = n2.
Proof. exact encode_ref_name_inj. Qed.
Print Assumptions C01_encoding_injective.

(** Exactly where a reference leads, for every name: to the entry named [lossy name], which is
    [name] itself exactly when it has no byte below 0x10. *)
Theorem C01_ref_exact : forall path name m defs,
  good_path path ->
  utf8_valid (definitions_path_stripped path) = true ->
  no_pct (definitions_path_stripped path) = true ->
  utf8_valid name = true ->
  NoDup (map fst defs) -> defs <> [] ->
  room (path_tokens path) m ->
  s_pointer (JObj (add_definitions path m defs)) (ref_string path name)
  = match mget (lossy name) defs with
    | Some d => Some d
    | None => mget (lossy name) (target (path_tokens path) m)
    end.
Proof. exact ref_resolves_lossy. Qed.
Print Assumptions C01_ref_exact.

Theorem C01_lossy_iff : forall s, lossy s = s <-> sforall not_control s = true.
Proof. intros s. split; [apply lossy_eq|apply lossy_id]. Qed.
Print Assumptions C01_lossy_iff.

(** Finding: a definition whose name has a control character below 0x10 (here a newline) cannot
    be found through its own reference, and the reference may reach another definition. *)
Theorem C01_ref_resolves_refuted : exists path name defs d,
  good_path path /\ utf8_valid name = true /\ NoDup (map fst defs) /\ mget name defs = Some d /\
  s_pointer (JObj (add_definitions path [] defs)) (ref_string path name) = None.
Proof.
  exists "/$defs", (String "010" ""), [(String "010" "", JBool true)], (JBool true).
  repeat split; try reflexivity; [exists "$defs"; split; [reflexivity|discriminate]|].
  repeat constructor. intros [].
Qed.
Print Assumptions C01_ref_resolves_refuted.

Theorem C01_ref_crosstalk_refuted : exists path name other defs d d',
  good_path path /\ utf8_valid name = true /\ NoDup (map fst defs) /\
  mget name defs = Some d /\ mget other defs = Some d' /\ d <> d' /\ name <> other /\
  s_pointer (JObj (add_definitions path [] defs)) (ref_string path name) = Some d'.
Proof.
  exists "/$defs", (String "010" ""), "% A", [(String "010" "", JBool true); ("% A", JBool false)],
    (JBool true), (JBool false).
  repeat split; try reflexivity; try discriminate;
    [exists "$defs"; split; [reflexivity|discriminate]|].
  repeat constructor; cbn; intuition discriminate.
Qed.
Print Assumptions C01_ref_crosstalk_refuted.

(** C02. Partial: names without a byte below 0x10. *)
Theorem C02_valid_fragment_partial : forall name,
  sforall not_control name = true -> valid_fragment (encode_ref_name name) = true.
Proof. exact valid_fragment_encode. Qed.
Print Assumptions C02_valid_fragment_partial.

Theorem C02_single_segment : forall name, no_slash (encode_ref_name name) = true.
Proof. exact no_slash_encode. Qed.
Print Assumptions C02_single_segment.

Theorem C02_valid_fragment_refuted : exists name,
  utf8_valid name = true /\ valid_fragment (encode_ref_name name) = false.
Proof. exists (String "009" ""). split; reflexivity. Qed.
Print Assumptions C02_valid_fragment_refuted.

(** C03. Partial: strings without "%+h". [spec_decode] is RFC 3986 decoding. *)
Theorem C03_percent_decode_partial : forall s,
  utf8_valid s = true -> has_pct_plus s = false ->
  percent_decode s = if utf8_valid (spec_decode s) then Some (spec_decode s) else None.
Proof.
  intros s H1 H2. apply utf8_valid_utf8 in H1. rewrite (percent_decode_pdec s H1).
  now rewrite (pdec_spec s (utf8_asc_ok s H1) H2).
Qed.
Print Assumptions C03_percent_decode_partial.

Example C03_example : utf8_valid "%%%2020%%%" = true /\ has_pct_plus "%%%2020%%%" = false
  /\ percent_decode "%%%2020%%%" = Some "%% 20%%%" /\ percent_decode "%F0%9F%9A" = None.
Proof. repeat split. Qed.

(** The result is always valid UTF-8, for every input string. *)
Theorem C03_decoded_is_utf8 : forall s t,
  utf8_valid s = true -> percent_decode s = Some t -> utf8_valid t = true.
Proof.
  intros s t H1 H2. apply utf8_valid_utf8 in H1. rewrite (percent_decode_pdec s H1) in H2.
  destruct (utf8_valid (pdec s)) eqn:E; [|discriminate]. injection H2 as <-. exact E.
Qed.
Print Assumptions C03_decoded_is_utf8.

Theorem C03_identity_without_percent : forall s,
  utf8_valid s = true -> no_pct s = true -> percent_decode s = Some s.
Proof.
  intros s _ H. unfold percent_decode. fold (no_pct s). rewrite H. reflexivity.
Qed.
Print Assumptions C03_identity_without_percent.

(** Finding: "%+5" is decoded although '+' is not a hex digit (u8::from_str_radix accepts a
    sign), contradicting the documentation of [percent_decode]. *)
Theorem C03_percent_decode_refuted : exists s,
  utf8_valid s = true /\ spec_decode s = s /\ percent_decode s <> Some s.
Proof. exists "%+5". repeat split. discriminate. Qed.
Print Assumptions C03_percent_decode_refuted.

(** C04: lens laws. *)
Theorem C04_write_then_read : forall v p x v',
  s_pointer_set v p x = Some v' -> s_pointer v' p = Some x.
Proof.
  intros v p x v'. unfold s_pointer_set, s_pointer, value_pointer_set, value_pointer.
  destruct (effective_pointer p) as [q|]; [|discriminate]. destruct (tokens q); [|discriminate].
  apply walk_set_get.
Qed.
Print Assumptions C04_write_then_read.

Theorem C04_write_back : forall v p x,
  s_pointer v p = Some x -> s_pointer_set v p x = Some v.
Proof.
  intros v p x. unfold s_pointer_set, s_pointer, value_pointer_set, value_pointer.
  destruct (effective_pointer p) as [q|]; [|discriminate]. destruct (tokens q); [|discriminate].
  apply walk_set_same.
Qed.
Print Assumptions C04_write_back.

(** [pointer_mut(p)] is [Some] exactly when [pointer(p)] is. *)
Theorem C04_mut_iff_shared : forall v p x,
  (exists v', s_pointer_set v p x = Some v') <-> (exists y, s_pointer v p = Some y).
Proof.
  intros v p x. unfold s_pointer_set, s_pointer, value_pointer_set, value_pointer.
  destruct (effective_pointer p) as [q|]; [|split; intros [? H]; discriminate].
  destruct (tokens q); [|split; intros [? H]; discriminate].
  apply walk_set_some.
Qed.
Print Assumptions C04_mut_iff_shared.

(** The reference tokens a pointer string stands for, in either representation. *)
Definition pointer_tokens (p : string) : option (list string) :=
  match effective_pointer p with Some q => tokens q | None => None end.

(** Pointers whose token sequences differ at some common position are independent. *)
Theorem C04_frame : forall v p q x v' ts qs,
  pointer_tokens p = Some ts -> pointer_tokens q = Some qs -> diverge ts qs ->
  s_pointer_set v p x = Some v' -> s_pointer v' q = s_pointer v q.
Proof.
  intros v p q x v' ts qs. unfold pointer_tokens, s_pointer_set, s_pointer, value_pointer_set, value_pointer.
  destruct (effective_pointer p) as [p'|]; [|discriminate]. intros ->.
  destruct (effective_pointer q) as [q'|]; [|discriminate]. intros ->.
  intros D H. eapply walk_set_frame; eauto.
Qed.
Print Assumptions C04_frame.

Example C04_example :
  let v := JObj [("a", JArr [JNull; JObj [("/~", JBool true)]])] in
  s_pointer_set v "#/a/1/%7E1~0" JNull = Some (JObj [("a", JArr [JNull; JObj [("/~", JNull)]])])
  /\ pointer_tokens "/a/0" = Some ["a"; "0"] /\ diverge ["a"; "1"; "/~"] ["a"; "0"].
Proof. cbn. repeat split. right. split; [reflexivity|]. left. discriminate. Qed.

(** Finding: the documentation of [pointer] says it "always returns None for bool schemas". *)
Theorem C04_bool_schema_none_refuted : exists p x, s_pointer (JBool true) p = Some x.
Proof. exists "", (JBool true). reflexivity. Qed.
Print Assumptions C04_bool_schema_none_refuted.

(** C05: every history of edits behaves as the specification map. *)
Theorem C05_history_refines_map : forall ops v s s' ps,
  represents v s -> spec_run ops s = Some (s', ps) ->
  exists v' rs, run ops v = Ok (v', rs) /\ represents v' s' /\ Forall2 obs_match rs ps.
Proof. exact run_refines. Qed.
Print Assumptions C05_history_refines_map.

Example C05_example :
  represents (JBool false) (SBool false) /\
  exists s' ps, spec_run [OInsert "type" (JStr "null"); ORemove "not"; OGet "not"; OGet "type"]
                         (SBool false) = Some (s', ps).
Proof. split; [reflexivity|]. do 2 eexists. reflexivity. Qed.

(** C06: conversion accepts exactly booleans and objects. *)
Theorem C06_try_from_exact : forall v s,
  try_from v = Some s <-> (s = v /\ ((exists b, v = JBool b) \/ (exists m, v = JObj m))).
Proof.
  intros v s. destruct v; cbn; split; try discriminate.
  all: try (intros [_ [[? H]|[? H]]]; discriminate).
  - intros H. injection H as <-. eauto.
  - intros [-> _]. reflexivity.
  - intros H. injection H as <-. eauto.
  - intros [-> _]. reflexivity.
Qed.
Print Assumptions C06_try_from_exact.

(** C06: no history of calls panics or leaves a non-schema, unless it writes through the root
    pointer ("" or "#"). *)
Theorem C06_invariant_partial : forall ops v,
  is_schema v = true -> forallb safe_op ops = true ->
  exists v' rs, run ops v = Ok (v', rs) /\ is_schema v' = true.
Proof. exact run_schema. Qed.
Print Assumptions C06_invariant_partial.

Example C06_example :
  forallb safe_op [OInsert "a" JNull; OPointerSet "#/a" (jint 1); OEnsureObject; OTryToObject] = true.
Proof. reflexivity. Qed.

(** Finding: writing null through [pointer_mut("")] makes later calls panic. *)
Theorem C06_invariant_refuted : exists ops v, is_schema v = true /\ run ops v = Panic.
Proof. exists [OPointerSet "" JNull; OEnsureObject], (JBool true). split; reflexivity. Qed.
Print Assumptions C06_invariant_refuted.

(** C07: the emitted text denotes the same value … *)
Theorem C07_serialize_lossless : forall s, wf s = true -> parse (schema_serialize s) = s.
Proof. intros s. apply ser_parse. Qed.
Print Assumptions C07_serialize_lossless.

(** … and its keys are in the documented order, at every depth. *)
Theorem C07_serialize_order : forall s, wf s = true -> reads_well false (schema_serialize s).
Proof. intros s. apply ser_reads_well. Qed.
Print Assumptions C07_serialize_order.

Example C07_example :
  let s := JObj [("$defs", JObj [("title", JObj []); ("z", JObj [("a", JNull); ("type", JStr "null")])]);
                 ("default", JObj [("a", JNull); ("title", JNull)]); ("type", JStr "object")] in
  wf s = true /\
  schema_serialize s =
    JObj [("type", JStr "object"); ("default", JObj [("a", JNull); ("title", JNull)]);
          ("$defs", JObj [("title", JObj []); ("z", JObj [("type", JStr "null"); ("a", JNull)])])].
Proof. split; reflexivity. Qed.

(** C18: definitions land at the configured path, merged over what is there. *)
Theorem C18_definitions_placed : forall path m defs,
  good_path path -> room (path_tokens path) m -> defs <> [] -> NoDup (map fst defs) ->
  exists t, s_pointer (JObj (add_definitions path m defs)) (definitions_path_stripped path) = Some (JObj t)
  /\ forall k, mget k t = match mget k defs with
                          | Some d => Some d | None => mget k (target (path_tokens path) m) end.
Proof.
  intros path m defs H1 H2 H3 H4. eexists. split; [now apply add_definitions_at|].
  intros k. now apply mget_mappend_NoDup.
Qed.
Print Assumptions C18_definitions_placed.

(** Everything off the path is kept. *)
Theorem C18_rest_untouched : forall path m defs q qs,
  good_path path -> room (path_tokens path) m ->
  pointer_tokens q = Some qs -> diverge (path_tokens path) qs ->
  s_pointer (JObj (add_definitions path m defs)) q = s_pointer (JObj m) q.
Proof.
  intros path m defs q qs H1 H2 H3 H4. unfold pointer_tokens in H3. unfold s_pointer, value_pointer.
  destruct (effective_pointer q) as [q'|]; [|discriminate]. rewrite H3.
  now apply add_definitions_frame.
Qed.
Print Assumptions C18_rest_untouched.

(** Nothing is added when there are no definitions. *)
Theorem C18_no_definitions : forall path m, add_definitions path m [] = m.
Proof. reflexivity. Qed.
Print Assumptions C18_no_definitions.

Example C18_example :
  good_path "#/components/schemas" /\ room (path_tokens "#/components/schemas") [("components", JObj [("x", JNull)])]
  /\ add_definitions "#/components/schemas" [("components", JObj [("x", JNull)])] [("A", JBool true)]
     = [("components", JObj [("schemas", JObj [("A", JBool true)]); ("x", JNull)])].
Proof. repeat split. exists "components/schemas". split; [reflexivity|discriminate]. Qed.

(** Findings: paths without a leading '/' or blocked by a non-object lose every definition
    silently. *)
Theorem C18_definitions_placed_refuted : exists path m defs,
  defs <> [] /\ add_definitions path m defs = m.
Proof. exists "$defs", [], [("A", JBool true)]. split; [discriminate|reflexivity]. Qed.
Print Assumptions C18_definitions_placed_refuted.

Theorem C18_blocked_refuted : exists m defs,
  defs <> [] /\ add_definitions "/$defs" m defs = m.
Proof. exists [("$defs", JBool true)], [("A", JBool true)]. split; [discriminate|reflexivity]. Qed.
Print Assumptions C18_blocked_refuted.
