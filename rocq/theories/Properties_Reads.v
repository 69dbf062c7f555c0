(** Property theorems C62: the document generated for a type under the deserialize contract accepts
    only JSON that serde reads as a value of the type.

    What serde reads is specified in Reads.v ([reads]), JSON Schema validation in Validate.v. *)
From Coq Require Import String Ascii List ZArith Bool Lia.
From Verif Require Import ValidationAttrs Json JsonFacts Utf8 Encoding SchemaApi Transform Validate ValidateFacts ValidateKw Pointer Private Generate
  GenerateDoc SerValue Types TypesShape Serde Derivation SoundBase SoundStruct SoundTypes SoundAdt Sound ValidateRefs Properties_Types TypeId Properties_Sound
  Properties_Contract Reads ReadsStep ReadsDoc.
Import ListNotations.
Open Scope string_scope.
Open Scope list_scope.

(** The types reached from [t] are in the fragment of Reads.v ([readable_type]), the names of
    definitions are plain text, only forwarding types like Box share an id, and no type is read from
    the same JSON as itself (as struct A(Box<A>) would be). *)
Record readable (items : nat -> item rval) (tok : string) (t : rty) : Prop := {
  rd_types : forall u, reach items t u -> readable_type items (wf_meta tok) u;
  rd_names : forall u, reach items t u -> type_inline items u = false -> plain_name (type_name items u);
  rd_ids : forall u u', reach items t u -> reach items t u' -> type_inline items u = false -> type_id items u = type_id items u' ->
    unwrap u = unwrap u';
  rd_grounded : forall u, reach items t u -> Acc (fun w u => passes items u w) u }.

(** serde alone: nothing is asked of texts or by validation attributes. *)
Definition serde_alone : checks := Checks (fun _ _ => true) (fun _ _ => true).

(** A validator that checks the formats of integers and addresses and follows the references into [doc] *)
Record strict_validator (text_ok : checks) (path : string) (doc : json) (E : env) : Prop := {
  sv_formats : checks_formats text_ok E;
  sv_refs : resolves E path doc }.

(** Flattened maps: at most one, after the other flattened fields. Missing: flattened enums, flattened fields
    of structs that deny unknown fields, newtype
    variants of internally tagged enums around anything but a struct that ignores unknown fields, maps
    whose keys are not strings (refuted below for integers and characters), 128-bit integers, Result, Bound, Range,
    Duration, SystemTime, OsString and CString. *)
Theorem C62_accepted_json_is_read_partial : forall St (items : nat -> item rval) text_ok tok (s : settings St) st fuel t doc E j,
  plain_settings tok Deserialize s -> readable items tok t -> root_document items s st fuel t doc ->
  strict_validator text_ok (s_path s) doc E ->
  instance j -> valid D2020 E doc j = true -> reads items text_ok t j.
Proof.
  intros St items text_ok tok s st fuel t doc E j HS HU [g' HR] HV HI HJ.
  destruct (ps_tok _ _ _ HS) as [more HT]. destruct (ps_fresh _ _ _ HS) as (F1 & F2). destruct (ps_text _ _ _ HS) as [T1 T2].
  eapply (root_reads items text_ok E (sv_formats _ _ _ _ HV) tok F1 F2 s (ps_contract _ _ _ HS) (ps_transforms _ _ _ HS)
    (ps_path _ _ _ HS) T1 T2 more HT t (rd_types _ _ _ HU) (rd_names _ _ _ HU) (rd_ids _ _ _ HU) (rd_grounded _ _ _ HU)); eauto.
  apply HV.
Qed.
Print Assumptions C62_accepted_json_is_read_partial.

(** ** An example *)
(** Formats *)
Definition all_ints : list ity := [I8; I16; I32; I64; I128; ISize; U8; U16; U32; U64; U128; USize].
Definition int_formats (f : string) (v : json) : bool :=
  match v with
  | JNum (NInt z) => forallb (fun i => negb (String.eqb f (int_format i)) || in_range i z) all_ints
  | _ => true
  end.
Definition checking (table : list (string * json)) : env := table_env D2020 (e_rx decimal_env) int_formats table.
Lemma checking_strict doc table : table_of doc table = true -> strict_validator serde_alone "/$defs" doc (checking table).
Proof.
  intros H. constructor; [|now apply table_resolves]. constructor; [|reflexivity|reflexivity].
  intros i z _ HF. change (e_fmt (checking table)) with int_formats in HF. cbn [int_formats] in HF. rewrite forallb_forall in HF.
  assert (HI : In i all_ints) by (destruct i; cbn; tauto). specialize (HF i HI). now rewrite String.eqb_refl in HF.
Qed.

(** struct Order { id: u32, #[serde(default)] tags: Vec<String>, parent: Option<Box<Order>>, state: State, counts: HashMap<String, i8> }
    #[serde(deny_unknown_fields)] enum State { Open, Closed { by: String }, #[serde(untagged)] Code(NonZeroU8) } *)
Definition ex_orders (n : nat) : item rval :=
  match n with
  | 0 => Item "app" "Order" None false (fun _ _ => Decl false (DStruct false (Struct
           [fld "id" (TInt U32); Field "tags" "tags" (TSeq TStr) false false None true None false no_vattrs [];
            fld "parent" (TOption (TFwd (TAdt 0 [] []))); fld "state" (TAdt 1 [] []); fld "counts" (TMap TStr (TInt I8))]))
           [("description", JStr "A node")])
  | _ => Item "app" "State" None false (fun _ _ => Decl true (DEnum External
           [Variant "Open" "Open" false false false Unit [];
            Variant "Closed" "Closed" false false false (Struct [fld "by" TStr]) [("description", JStr "Round")];
            Variant "Code" "Code" false false true (Newtype (fld "0" (TNonZero U8))) []]) [])
  end.
Definition ex_order_types : list rty :=
  [TAdt 0 [] []; TAdt 1 [] []; TFwd (TAdt 0 [] []); TOption (TFwd (TAdt 0 [] [])); TSeq TStr; TStr; TMap TStr (TInt I8); TInt U32; TInt I8;
   TNonZero U8; TInt U8; TUnit].

Lemma ex_orders_closed x w : In x ex_order_types -> In w (asked ex_orders x) -> In w ex_order_types.
Proof.
  unfold ex_order_types. cbn [In]. intros HX. repeat (destruct HX as [<-|HX]; [cbn; intuition (subst; auto 20)|]). destruct HX.
Qed.

(** Fields that are not flattened look at their own names. *)
Lemma plain_keys {X} (items : nat -> item X) fs :
  (forall f, In f fs -> f_flatten f = false) -> NoDup (map f_de (taken fs)) -> own_keys items fs.
Proof.
  unfold own_keys, taken. induction fs as [|f fs IH]; intros HF HN; [constructor|]. cbn [filter] in *.
  destruct (negb (f_skip_de f)); [|apply IH; auto; intros g Hg; apply HF; now right].
  cbn [map] in HN. inversion HN as [|? ? HN1 HN2]; subst. constructor; [|apply IH; auto; intros g Hg; apply HF; now right].
  apply Forall_forall. intros g Hg k H1 H2. assert (Hg' := Hg). apply filter_In in Hg' as [Hg' _].
  inversion H1 as [f' HFl1|f' k' HFl1 _]; subst; [|rewrite HF in HFl1 by (now left); discriminate].
  inversion H2 as [f' HFl2 HE HE'|f' k' HFl2 _ HE HE']; subst f'; [|rewrite HF in HFl2 by (now right); discriminate].
  apply HN1. rewrite <- HE'. now apply in_map.
Qed.
Lemma plain_maps {X} (items : nat -> item X) fs : (forall f, In f fs -> f_flatten f = false) -> map_last items fs.
Proof.
  unfold map_last, taken. induction fs as [|f fs IH]; intros HF; [constructor|]. cbn [filter].
  destruct (negb (f_skip_de f)); [|apply IH; intros g Hg; apply HF; now right].
  constructor; [|apply IH; intros g Hg; apply HF; now right]. apply Forall_forall. intros g _ HX. rewrite HF in HX by (now left). discriminate.
Qed.
Ltac no_pass := let w := fresh in let HW := fresh in let f := fresh in let Hf := fresh in let HX := fresh in
  intros w HW; first [exact HW|destruct HW as (f & Hf & HX & _); cbn in Hf; repeat (destruct Hf as [<-|Hf]; [discriminate HX|]); exact Hf].
Ltac plain_keys := split; [apply plain_keys; [cbn; intuition (subst; reflexivity)|cbn; repeat constructor; cbn; intuition discriminate]
  |apply plain_maps; cbn; intuition (subst; reflexivity)].

Lemma ex_orders_readable : readable ex_orders "$defs" (TAdt 0 [] []).
Proof.
  assert (HL : forall u, reach ex_orders (TAdt 0 [] []) u -> In u ex_order_types).
  { intros u. apply reach_list; [now left|apply ex_orders_closed]. }
  assert (HM : wf_meta "$defs" [("description", JStr "A node")] /\ wf_meta "$defs" [("description", JStr "Round")]) by (apply ex_meta; discriminate).
  constructor.
  - intros u HR. apply HL in HR. unfold ex_order_types in HR. cbn [In] in HR.
    assert (H0 : readable_type ex_orders (wf_meta "$defs") (TAdt 0 [] [])).
    { split; [apply HM|]. split; [|plain_keys].
      intros f Hf. cbn in Hf. repeat (destruct Hf as [<-|Hf]; [split; [apply ex_no_meta|left; reflexivity]|]). destruct Hf. }
    assert (H1 : readable_type ex_orders (wf_meta "$defs") (TAdt 1 [] [])).
    { split; [apply ex_no_meta|]. split; [|right; repeat constructor; cbn; intuition discriminate].
      intros v Hv. cbn in Hv. destruct Hv as [<-|[<-|[<-|[]]]]; (split; [first [apply ex_no_meta|apply HM]|]); (split; [|intros _; exact I]).
      - exact I.
      - split; [intros f [<-|[]]; split; [apply ex_no_meta|left; reflexivity]|plain_keys].
      - split; [reflexivity|split; [apply ex_no_meta|left; reflexivity]]. }
    repeat (destruct HR as [<-|HR]; [first [exact H0|exact H1|exact I|split; discriminate]|]). destruct HR.
  - intros u HR HI. apply HL in HR. unfold ex_order_types in HR. cbn [In] in HR.
    repeat (destruct HR as [<-|HR]; [first [discriminate HI|split; vm_compute; reflexivity]|]). destruct HR.
  - intros u u' HR HR' HI HE. apply HL in HR. apply HL in HR'. unfold ex_order_types in HR, HR'. cbn [In] in HR, HR'.
    repeat (destruct HR as [<-|HR]; [first [discriminate HI|clear HI; repeat (destruct HR' as [<-|HR']; [first [reflexivity|discriminate HE]|]); destruct HR']|]). destruct HR.
  - intros u HR. apply HL in HR. unfold ex_order_types in HR. cbn [In] in HR.
    assert (G0 : forall u, (forall w, ~ passes ex_orders u w) -> Acc (fun w u => passes ex_orders u w) u).
    { intros v H. constructor. intros w HW. now apply H in HW. }
    assert (G1 : Acc (fun w u => passes ex_orders u w) (TAdt 1 [] [])).
    { constructor. intros w (v & Hv & _ & HP). cbn in Hv. destruct Hv as [<-|[<-|[<-|[]]]]; [destruct HP|destruct HP as (f & [<-|[]] & HX & _); discriminate HX|].
      change (w = TNonZero U8) in HP. subst w. apply G0. intros w HW. exact HW. }
    assert (G2 : Acc (fun w u => passes ex_orders u w) (TFwd (TAdt 0 [] []))) by (apply G0; no_pass).
    assert (G3 : Acc (fun w u => passes ex_orders u w) (TOption (TFwd (TAdt 0 [] [])))).
    { constructor. intros w HW. change (w = TFwd (TAdt 0 [] [])) in HW. subst w. exact G2. }
    repeat (destruct HR as [<-|HR]; [first [exact G1|exact G3|apply G0; no_pass]|]). destruct HR.
Qed.

(** The hypotheses are met; the document accepts an order with a nested one, and rejects it when a
    count or an id is out of range. *)
Definition an_order (id : Z) (state : json) (count : Z) (parent : json) : json :=
  JObj [("counts", JObj [("a", JNum (NInt count))]); ("id", JNum (NInt id)); ("parent", parent); ("state", state)].
Example C62_example :
  let doc := de_doc ex_orders (TAdt 0 [] []) in
  let E := checking (doc_table doc) in
  plain_settings "$defs" Deserialize de_settings /\ readable ex_orders "$defs" (TAdt 0 [] [])
  /\ root_document ex_orders de_settings tt 20 (TAdt 0 [] []) doc
  /\ strict_validator serde_alone (s_path de_settings) doc E
  /\ (let j := an_order 7 (JNum (NInt 3)) 5 (an_order 8 (JObj [("Closed", JObj [("by", JStr "x")])]) (-4) JNull) in
      instance j /\ valid D2020 E doc j = true)
  /\ valid D2020 E doc (an_order 7 (JStr "Open") 5 (an_order 8 (JObj [("Closed", JObj [("by", JStr "x")])]) (-400) JNull)) = false
  /\ valid D2020 E doc (an_order 5000000000 (JStr "Open") 5 JNull) = false
  /\ valid D2020 E doc (an_order 7 (JObj [("Closed", JObj [("by", JStr "x"); ("for", JStr "y")])]) 5 JNull) = false.
Proof.
  cbv zeta. split; [apply de_plain|]. split; [apply ex_orders_readable|]. split; [eexists; vm_compute; reflexivity|].
  split; [apply checking_strict; vm_compute; reflexivity|]. split; [split; [split|]; vm_compute; reflexivity|].
  split; [|split]; vm_compute; reflexivity.
Qed.

(** *** Flattened structs, and a tag inside a struct *)
(** struct Page { #[serde(flatten)] at: Position, #[serde(flatten)] note: Option<Note>, shape: Shape, extra: Extra }
    struct Position { line: u32, column: u8 }        struct Note { text: String, stamp: u8 }
    #[serde(tag = "kind")] enum Shape { Round(Wheel), Nothing }        struct Wheel { radius: u8 }
    struct Extra { #[serde(flatten)] at: Position, name: String, #[serde(flatten)] rest: HashMap<String, u8> } *)
Definition flat (n : string) (t : rty) : field rval := Field n n t false false None false None true no_vattrs [].
Definition struct_of (name : string) (fs : list (field rval)) : item rval :=
  Item "app" name None false (fun _ _ => Decl false (DStruct false (Struct fs)) []).
Definition ex_pages (n : nat) : item rval :=
  match n with
  | 0 => struct_of "Page" [flat "at" (TAdt 1 [] []); flat "note" (TOption (TAdt 2 [] [])); fld "shape" (TAdt 3 [] []); fld "extra" (TAdt 5 [] [])]
  | 1 => struct_of "Position" [fld "line" (TInt U32); fld "column" (TInt U8)]
  | 2 => struct_of "Note" [fld "text" TStr; fld "stamp" (TInt U8)]
  | 3 => Item "app" "Shape" None false (fun _ _ => Decl false (DEnum (Internal "kind")
           [Variant "Round" "Round" false false false (Newtype (fld "0" (TAdt 4 [] []))) [];
            Variant "Nothing" "Nothing" false false false Unit []]) [])
  | 4 => struct_of "Wheel" [fld "radius" (TInt U8)]
  | _ => struct_of "Extra" [flat "at" (TAdt 1 [] []); fld "name" TStr; flat "rest" (TMap TStr (TInt U8))]
  end.
Definition ex_page_types : list rty :=
  [TAdt 0 [] []; TAdt 1 [] []; TAdt 2 [] []; TAdt 3 [] []; TAdt 4 [] []; TOption (TAdt 2 [] []); TInt U32; TInt U8; TStr; TUnit;
   TAdt 5 [] []; TMap TStr (TInt U8)].
Lemma ex_pages_closed x w : In x ex_page_types -> In w (asked ex_pages x) -> In w ex_page_types.
Proof.
  unfold ex_page_types. cbn [In]. intros HX. repeat (destruct HX as [<-|HX]; [cbn; intuition (subst; auto 20)|]). destruct HX.
Qed.
(** The keys of a struct without flattened fields *)
Lemma plain_takes n cs ts def fs k : d_data (it_decl (ex_pages n) cs ts) = DStruct def (Struct fs) ->
  (forall f, In f fs -> f_flatten f = false) -> takes_key ex_pages (TAdt n cs ts) k -> In k (map f_de fs).
Proof.
  intros HD HF H. inversion H as [i cs' ts' def' fs' f k' HD' Hf Hs Hk| |]; subst. rewrite HD in HD'. injection HD' as <- <-.
  inversion Hk as [f' HFl|f' k' HFl _]; subst; [now apply in_map|]. rewrite HF in HFl by assumption. discriminate.
Qed.
Lemma flat_takes n t k : field_takes ex_pages (flat n t) k -> takes_key ex_pages (strip_option t) k.
Proof. intros H. inversion H as [f HFl|f k' HFl HK]; subst; [discriminate|exact HK]. Qed.
Lemma fld_takes n t k : field_takes ex_pages (fld n t) k -> k = n.
Proof. intros H. inversion H as [f HFl|f k' HFl HK]; subst; [reflexivity|discriminate]. Qed.

Lemma ex_pages_readable : readable ex_pages "$defs" (TAdt 0 [] []).
Proof.
  assert (HL : forall u, reach ex_pages (TAdt 0 [] []) u -> In u ex_page_types).
  { intros u. apply reach_list; [now left|apply ex_pages_closed]. }
  assert (HO : forall n, n = 1 \/ n = 2 \/ n = 4 -> open_struct ex_pages (TAdt n [] [])).
  { intros n [->|[->| ->]]; do 5 eexists; (split; [reflexivity|split; [reflexivity|split; [reflexivity|]]]); cbn; intuition (subst; discriminate). }
  assert (K1 : forall k, takes_key ex_pages (TAdt 1 [] []) k -> k = "line" \/ k = "column").
  { intros k H. apply (plain_takes 1 [] [] _ _ _ eq_refl) in H; [cbn in H; intuition congruence|cbn; intuition (subst; reflexivity)]. }
  assert (K2 : forall k, takes_key ex_pages (TAdt 2 [] []) k -> k = "text" \/ k = "stamp").
  { intros k H. apply (plain_takes 2 [] [] _ _ _ eq_refl) in H; [cbn in H; intuition congruence|cbn; intuition (subst; reflexivity)]. }
  assert (K4 : forall k, takes_key ex_pages (TAdt 4 [] []) k -> k = "radius").
  { intros k H. apply (plain_takes 4 [] [] _ _ _ eq_refl) in H; [cbn in H; intuition congruence|cbn; intuition (subst; reflexivity)]. }
  assert (KM : forall k, ~ takes_key ex_pages (TMap TStr (TInt U8)) k) by (intros k H; inversion H).
  Ltac pairs := repeat first [apply FOP_cons|apply FOP_nil|apply Forall_cons|apply Forall_nil].
  Ltac ordered := unfold own_keys; cbn [taken filter f_skip_de negb flat fld]; pairs; intros k A B;
    repeat match goal with
    | H : field_takes _ _ _ |- _ => first [apply flat_takes in H; cbn [strip_option] in H|apply fld_takes in H]
    | K : forall k, takes_key _ (TAdt ?n _ _) k -> _, H : takes_key _ (TAdt ?n _ _) _ |- _ => apply K in H
    | K : forall k, ~ takes_key _ (TMap _ _) k, H : takes_key _ (TMap _ _) _ |- _ => destruct (K _ H)
    end; intuition congruence.
  constructor.
  - intros u HR. apply HL in HR. unfold ex_page_types in HR. cbn [In] in HR.
    assert (H0 : readable_type ex_pages (wf_meta "$defs") (TAdt 0 [] [])).
    { split; [apply ex_no_meta|]. split; [|split].
      - intros f Hf. cbn in Hf. destruct Hf as [<-|[<-|[<-|[<-|[]]]]]; cbn [f_flatten].
        + split; [reflexivity|]. split; [reflexivity|]. left. apply HO. auto.
        + split; [reflexivity|]. split; [reflexivity|]. left. apply HO. auto.
        + split; [apply ex_no_meta|left; reflexivity].
        + split; [apply ex_no_meta|left; reflexivity].
      - ordered.
      - unfold map_last; cbn [taken filter f_skip_de negb flat fld]; pairs; intros X1 X2; try discriminate; split; [reflexivity|discriminate]. }
    assert (H5 : readable_type ex_pages (wf_meta "$defs") (TAdt 5 [] [])).
    { split; [apply ex_no_meta|]. split; [|split].
      - intros f Hf. cbn in Hf. destruct Hf as [<-|[<-|[<-|[]]]]; cbn [f_flatten].
        + split; [reflexivity|]. split; [reflexivity|]. left. apply HO. auto.
        + split; [apply ex_no_meta|left; reflexivity].
        + split; [reflexivity|]. split; [reflexivity|]. right. exact I.
      - ordered.
      - unfold map_last; cbn [taken filter f_skip_de negb flat fld]; pairs; intros X1 X2; try discriminate; split; [reflexivity|]. intros _. do 5 eexists. split; [reflexivity|].
        split; [reflexivity|]. cbn. intuition (subst; reflexivity). }
    assert (HP : forall n, n = 1 \/ n = 2 \/ n = 4 -> readable_type ex_pages (wf_meta "$defs") (TAdt n [] [])).
    { intros n [->|[->| ->]]; (split; [apply ex_no_meta|]); (split; [|plain_keys]);
        intros f Hf; cbn in Hf; repeat (destruct Hf as [<-|Hf]; [split; [apply ex_no_meta|left; reflexivity]|]); destruct Hf. }
    assert (H3 : readable_type ex_pages (wf_meta "$defs") (TAdt 3 [] [])).
    { split; [apply ex_no_meta|]. split; [|right; repeat constructor; cbn; intuition discriminate].
      intros v Hv. cbn in Hv. destruct Hv as [<-|[<-|[]]]; (split; [apply ex_no_meta|]); split.
      - split; [reflexivity|split; [apply ex_no_meta|left; reflexivity]].
      - intros _. split; [reflexivity|]. split; [apply HO; auto|]. intros H. apply K4 in H. discriminate.
      - exact I.
      - intros _. exact I. }
    repeat (destruct HR as [<-|HR]; [first [exact H0|exact H3|exact H5|apply HP; auto; fail|exact I|split; discriminate]|]). destruct HR.
  - intros u HR HI. apply HL in HR. unfold ex_page_types in HR. cbn [In] in HR.
    repeat (destruct HR as [<-|HR]; [first [discriminate HI|split; vm_compute; reflexivity]|]). destruct HR.
  - intros u u' HR HR' HI HE. apply HL in HR. apply HL in HR'. unfold ex_page_types in HR, HR'. cbn [In] in HR, HR'.
    repeat (destruct HR as [<-|HR]; [first [discriminate HI|clear HI; repeat (destruct HR' as [<-|HR']; [first [reflexivity|discriminate HE]|]); destruct HR']|]). destruct HR.
  - intros u HR. apply HL in HR. unfold ex_page_types in HR. cbn [In] in HR.
    assert (G0 : forall u, (forall w, ~ passes ex_pages u w) -> Acc (fun w u => passes ex_pages u w) u).
    { intros v H. constructor. intros w HW. now apply H in HW. }
    assert (G1 : Acc (fun w u => passes ex_pages u w) (TAdt 1 [] [])) by (apply G0; no_pass).
    assert (G2 : Acc (fun w u => passes ex_pages u w) (TAdt 2 [] [])) by (apply G0; no_pass).
    assert (G4 : Acc (fun w u => passes ex_pages u w) (TAdt 4 [] [])) by (apply G0; no_pass).
    assert (G3 : Acc (fun w u => passes ex_pages u w) (TAdt 3 [] [])).
    { constructor. intros w (v & Hv & _ & HP). cbn in Hv. destruct Hv as [<-|[<-|[]]]; [|destruct HP]. change (w = TAdt 4 [] []) in HP. now subst w. }
    assert (G5 : Acc (fun w u => passes ex_pages u w) (TOption (TAdt 2 [] []))).
    { constructor. intros w HW. change (w = TAdt 2 [] []) in HW. now subst w. }
    assert (G6 : Acc (fun w u => passes ex_pages u w) (TAdt 0 [] [])).
    { constructor. intros w (f & Hf & HX & ->). cbn in Hf. destruct Hf as [<-|[<-|[<-|[<-|[]]]]]; [exact G1|exact G2|discriminate HX|discriminate HX]. }
    assert (G7 : Acc (fun w u => passes ex_pages u w) (TMap TStr (TInt U8))) by (apply G0; no_pass).
    assert (G8 : Acc (fun w u => passes ex_pages u w) (TAdt 5 [] [])).
    { constructor. intros w (f & Hf & HX & ->). cbn in Hf. destruct Hf as [<-|[<-|[<-|[]]]]; [exact G1|discriminate HX|exact G7]. }
    repeat (destruct HR as [<-|HR]; [first [exact G6|exact G8|exact G3|exact G5|apply G0; no_pass]|]). destruct HR.
Qed.
(** A page without a note is accepted; one whose position lacks a column, whose wheel has a radius out of
    range or whose extra entries are not of type u8 is not. *)
Definition extra (e : json) : json := JObj [("column", JNum (NInt 0)); ("line", JNum (NInt 1)); ("more", e); ("name", JStr "n")].
Definition a_page (col : map_t) (shape e : json) : json := JObj (col ++ [("extra", extra e); ("line", JNum (NInt 3)); ("shape", shape)]).
Example C62_flatten_example :
  let doc := de_doc ex_pages (TAdt 0 [] []) in
  let E := checking (doc_table doc) in
  let wheel z := JObj [("kind", JStr "Round"); ("radius", JNum (NInt z))] in
  let col := ("column", JNum (NInt 1)) in
  readable ex_pages "$defs" (TAdt 0 [] []) /\ root_document ex_pages de_settings tt 20 (TAdt 0 [] []) doc
  /\ strict_validator serde_alone (s_path de_settings) doc E
  /\ (let j := JObj [col; ("extra", extra (JNum (NInt 7))); ("line", JNum (NInt 3)); ("shape", wheel 9%Z); ("stamp", JNum (NInt 2)); ("text", JStr "x")] in
      instance j /\ valid D2020 E doc j = true)
  /\ (let j := a_page [col] (wheel 9%Z) (JNum (NInt 7)) in instance j /\ valid D2020 E doc j = true)
  /\ valid D2020 E doc (a_page [] (wheel 9%Z) (JNum (NInt 7))) = false
  /\ valid D2020 E doc (a_page [col] (wheel 900%Z) (JNum (NInt 7))) = false
  /\ valid D2020 E doc (a_page [col] (wheel 9%Z) (JStr "x")) = false
  /\ valid D2020 E doc (a_page [col] (JObj [("kind", JStr "Nothing")]) (JNum (NInt 7))) = true.
Proof.
  cbv zeta. split; [apply ex_pages_readable|]. split; [eexists; vm_compute; reflexivity|].
  split; [apply checking_strict; vm_compute; reflexivity|].
  split; [split; [split|]; vm_compute; reflexivity|]. split; [split; [split|]; vm_compute; reflexivity|].
  repeat split; vm_compute; reflexivity.
Qed.

(** ** What the documents accept although serde does not read it *)
(** A proper JSON value that every validator accepts, even one that checks the formats as the types mean
    them (and takes 1.0 for an integer in its format check too, as in the keyword "type"): *)
Definition misread (items : nat -> item rval) (t : rty) (j : json) : Prop :=
  wf j = true /\ root_document items de_settings tt 20 t (de_doc items t)
  /\ (forall E, strict_validator serde_alone (s_path de_settings) (de_doc items t) E ->
        decimal_patterns E -> e_fmt E "uint8" (JNum (NFlt 1 0)) = true ->
        (forall i z, in_range i z = true -> e_fmt E (int_format i) (JNum (NInt z)) = true) -> valid D2020 E (de_doc items t) j = true)
  /\ ~ reads items serde_alone t j.

(** u8 from 1.0 (JSON Schema counts it as an integer), *)
Theorem C62_integral_float_refuted : misread no_items_r (TInt U8) (JNum (NFlt 1 0)).
Proof.
  split; [reflexivity|]. split; [eexists; vm_compute; reflexivity|]. split.
  - intros E _ _ HF _. assert (HD : forall v, valid D2020 E (de_doc no_items_r (TInt U8)) v = valid D2020 E (int_schema U8) v) by (intros v; vm_compute; reflexivity).
    rewrite HD, valid_int. cbn [int_format]. rewrite HF. vm_compute. reflexivity.
  - intros H. inversion H.
Qed.
Print Assumptions C62_integral_float_refuted.

(** HashMap<u8, bool> from an object with a key that is out of range, *)
Theorem C62_integer_key_refuted : misread no_items_r (TMap (TInt U8) TBool) (JObj [("999", JBool true)]).
Proof.
  split; [reflexivity|]. split; [eexists; vm_compute; reflexivity|]. split.
  - intros E _ [HE1 _] _ _.
    assert (HD : forall v, valid D2020 E (de_doc no_items_r (TMap (TInt U8) TBool)) v = valid D2020 E (map_of_kinds (KeyKinds false 1 [] []) (type_schema "boolean")) v) by (intros v; vm_compute; reflexivity).
    rewrite HD, valid_map. cbn [forallb fst snd]. rewrite valid_type_schema. unfold key_allowed. cbn. change digits_pattern with "^\d+$".
    now rewrite HE1.
  - intros H. inversion H as [| | | | | | | | | | | | | | | | | |k t o HK HV| | | | | | | | | | | | | | | |]; subst. specialize (HK _ _ (or_introl eq_refl)).
    inversion HK as [| |i z HR HI|]. clear HI. match goal with H : show_int z = _ |- _ => change "999" with (show_int 999) in H; apply show_inj in H end. subst. discriminate HR.
Qed.
Print Assumptions C62_integer_key_refuted.

(** HashMap<char, bool> from an object with a key of two characters, *)
Theorem C62_char_key_refuted : misread no_items_r (TMap TChar TBool) (JObj [("ab", JBool true)]).
Proof.
  split; [reflexivity|]. split; [eexists; vm_compute; reflexivity|]. split.
  - intros E _ _ _ _. vm_compute. reflexivity.
  - intros H. inversion H as [| | | | | | | | | | | | | | | | | |k t o HK HV| | | | | | | | | | | | | | | |]; subst. specialize (HK _ _ (or_introl eq_refl)). inversion HK; subst. discriminate.
Qed.
Print Assumptions C62_char_key_refuted.

(** #[serde(tag = "t", content = "c")] enum T { A } from an object with contents for A. *)
Definition ex_adjacent : nat -> item rval :=
  one_item (Decl false (DEnum (Adjacent "t" "c") [Variant "A" "A" false false false Unit []]) []).
Theorem C62_adjacent_content_refuted : misread ex_adjacent (TAdt 0 [] []) (JObj [("c", JNum (NInt 5)); ("t", JStr "A")]).
Proof.
  split; [reflexivity|]. split; [eexists; vm_compute; reflexivity|]. split.
  - intros E _ _ _ _. vm_compute. reflexivity.
  - intros H. inversion H as [| | | | | | | | | | | | | | | | | | | | | | | | | | | | | | | | | |i cs ts j HD]; subst. cbn in HD.
    inversion HD as [|deny tg vs v j HV HS HO HR| | |]; subst. destruct HV as [<-|[]].
    inversion HR; subst; cbn in *; try discriminate; try congruence; repeat match goal with H : _ \/ _ |- _ => destruct H end; try discriminate; contradiction.
Qed.
Print Assumptions C62_adjacent_content_refuted.

(** struct T { #[serde(flatten)] rest: HashMap<String, u8>, #[serde(flatten)] names: Names } struct Names { first: String }:
    the map is read first and sees the key of the struct too, *)
Definition ex_map_first (n : nat) : item rval :=
  match n with
  | 0 => struct_of "T" [flat "rest" (TMap TStr (TInt U8)); flat "names" (TAdt 1 [] [])]
  | _ => struct_of "Names" [fld "first" TStr]
  end.
Theorem C62_map_first_refuted : misread ex_map_first (TAdt 0 [] []) (JObj [("first", JStr "x")]).
Proof.
  split; [reflexivity|]. split; [eexists; vm_compute; reflexivity|]. split.
  - intros E _ _ _ _. vm_compute. reflexivity.
  - intros H. inversion H as [| | | | | | | | | | | | | | | | | | | | | | | | | | | | | | | | | |i cs ts j HD]; subst. cbn in HD.
    inversion HD as [deny def s j HB| | | |]; subst. inversion HB as [| | |def deny fs o Q1 Q2 Q3 Q4 Q5 Q6 Q7 HM Q9]; subst.
    specialize (HM [] _ _ _ _ "first" (JStr "x") eq_refl eq_refl eq_refl (or_introl eq_refl)).
    assert (HR : reads ex_map_first serde_alone (TInt U8) (JStr "x")); [|inversion HR]. apply HM. split.
    + intros g Hg. cbn in Hg. destruct Hg as [<-|[<-|[]]]; discriminate.
    + intros g [].
Qed.
Print Assumptions C62_map_first_refuted.

(** struct T { #[serde(flatten)] rest: HashMap<String, Void> } #[schemars(inline)] enum Void {}: the keyword
    "additionalProperties": false of the map is removed when it is flattened, *)
Definition ex_void (n : nat) : item rval :=
  match n with
  | 0 => struct_of "T" [flat "rest" (TMap TStr (TAdt 1 [] []))]
  | _ => Item "app" "Void" None true (fun _ _ => Decl false (DEnum External []) [])
  end.
Theorem C62_void_map_refuted : misread ex_void (TAdt 0 [] []) (JObj [("first", JNull)]).
Proof.
  split; [reflexivity|]. split; [eexists; vm_compute; reflexivity|]. split.
  - intros E _ _ _ _. vm_compute. reflexivity.
  - intros H. inversion H as [| | | | | | | | | | | | | | | | | | | | | | | | | | | | | | | | | |i cs ts j HD]; subst. cbn in HD.
    inversion HD as [deny def s j HB| | | |]; subst. inversion HB as [| | |def deny fs o Q1 Q2 Q3 Q4 Q5 Q6 Q7 HM Q9]; subst.
    specialize (HM [] _ _ _ _ "first" JNull eq_refl eq_refl eq_refl (or_introl eq_refl)).
    assert (HR : reads ex_void serde_alone (TAdt 1 [] []) JNull).
    { apply HM. split; [|intros g []]. intros g Hg. cbn in Hg. destruct Hg as [<-|[]]; discriminate. }
    inversion HR as [| | | | | | | | | | | | | | | | | | | | | | | | | | | | | | | | | |i cs ts j HD']; subst. cbn in HD'.
    inversion HD' as [|deny tg vs v j HV _ _ _| | |]; subst. destruct HV.
Qed.
Print Assumptions C62_void_map_refuted.

(** Duration, Range<u8>, Result<bool, bool> and Bound<bool> from an object with a further key, *)
Theorem C62_unknown_key_refuted :
  misread no_items_r TDuration (JObj [("nanos", JNum (NInt 0)); ("secs", JNum (NInt 1)); ("x", JNull)])
  /\ misread no_items_r (TRange (TInt U8)) (JObj [("end", JNum (NInt 2)); ("start", JNum (NInt 1)); ("x", JNull)])
  /\ misread no_items_r (TResult TBool TBool) (JObj [("Ok", JBool true); ("x", JNull)])
  /\ misread no_items_r (TBound TBool) (JObj [("Included", JBool true); ("x", JNull)]).
Proof.
  repeat split; try reflexivity; try (eexists; vm_compute; reflexivity).
  - intros E _ _ _ HF. pose proof (HF U32 0%Z eq_refl) as F1. pose proof (HF U64 1%Z eq_refl) as F2. destruct E as [r x f]. vm_compute in F1, F2 |- *. now rewrite F1, F2.
  - intros H. inversion H as [| | | | | | | | | | | | | | | | | | | | | | | |o s n HO| | | | | | | | | |]; subst. specialize (HO _ _ (or_intror (or_intror (or_introl eq_refl)))).
    cbn in HO. intuition discriminate.
  - intros E _ _ _ HF. pose proof (HF U8 1%Z eq_refl) as F1. pose proof (HF U8 2%Z eq_refl) as F2. destruct E as [r x f]. vm_compute in F1, F2 |- *. now rewrite F1, F2.
  - intros H. inversion H as [| | | | | | | | | | | | | | | | | | | | | | |t o a b HO| | | | | | | | | | |]; subst. specialize (HO _ _ (or_intror (or_intror (or_introl eq_refl)))).
    cbn in HO. intuition discriminate.
  - intros H. inversion H.
  - intros H. inversion H.
Qed.
Print Assumptions C62_unknown_key_refuted.

(** and chrono::TimeDelta from a number of seconds that it cannot hold. *)
Theorem C62_time_delta_refuted : misread no_items_r TTimeDelta (JArr [JNum (NInt 9223372036854776); JNum (NInt 0)]).
Proof.
  split; [reflexivity|]. split; [eexists; vm_compute; reflexivity|]. split.
  - intros E _ _ _ HF. pose proof (HF I64 9223372036854776%Z eq_refl) as F1. destruct E as [r x f]. vm_compute in F1 |- *. now rewrite F1.
  - intros H. inversion H; subst. match goal with HT : time_delta_ok _ _ = true |- _ => vm_compute in HT; discriminate HT end.
Qed.
Print Assumptions C62_time_delta_refuted.

(** A validator for which "format" is an annotation only, the default of JSON Schema, accepts integers
    that are out of range: 2^32 as a u32. *)
Theorem C62_unchecked_formats_refuted : exists E j,
  resolves E (s_path de_settings) (de_doc no_items_r (TInt U32))
  /\ root_document no_items_r de_settings tt 20 (TInt U32) (de_doc no_items_r (TInt U32))
  /\ instance j /\ valid D2020 E (de_doc no_items_r (TInt U32)) j = true /\ ~ reads no_items_r serde_alone (TInt U32) j.
Proof.
  exists (the_validator (doc_table (de_doc no_items_r (TInt U32)))), (JNum (NInt (2 ^ 32))).
  split; [apply table_resolves; vm_compute; reflexivity|]. split; [eexists; vm_compute; reflexivity|].
  split; [split; vm_compute; reflexivity|]. split; [vm_compute; reflexivity|].
  intros H. inversion H; subst. match goal with H : in_range _ _ = true |- _ => vm_compute in H; discriminate H end.
Qed.
Print Assumptions C62_unchecked_formats_refuted.
