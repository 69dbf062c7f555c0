(** Property C67: the contract matters only where attributes tell writing from reading. *)
From Coq Require Import String Ascii List ZArith Bool Lia.
From Verif Require Import Json JsonFacts Validate ValidateFacts Private ValidationAttrs Generate SerValue Types Serde Sound Settings ContractSym Properties_Sound Properties_Contract.
Import ListNotations.
Open Scope string_scope.
Open Scope list_scope.

(** The document that a new generator returns *)
Definition document_of {X St} (items : nat -> item X) (s : settings St) (st : St) (fuel : nat) (t : rty) : option json :=
  option_map fst (root_schema_for (info items) (json_schema (info items) fuel) t (new_gen s st)).

(** If every type that is reached is written as it is read, [for_serialize] and [for_deserialize] give
    one document, whatever the other settings are (transforms of the user's own included). *)
Theorem C67_one_document : forall X St (items : nat -> item X) (s : settings St) st fuel t,
  (forall u, reach items t u -> both_ways items u) ->
  document_of items (for_serialize s) st fuel t = document_of items (for_deserialize s) st fuel t.
Proof. intros X St items s st fuel t HB. now apply same_document. Qed.
Print Assumptions C67_one_document.

(** struct Order { id: u32, #[serde(default, skip_serializing_if = ...)] tags: Vec<String>, #[serde(skip)] cache: u8,
    #[serde(skip_serializing_if = ...)] parent: Option<Box<Order>>, state: State, #[serde(flatten)] at: At }
    #[serde(tag = "t")] enum State { Open, Closed { by: String } }   struct At { x: f64 } with conversions from and into Pos *)
Definition never (_ : rval) : bool := false.
Definition both_items (n : nat) : item rval :=
  match n with
  | 0 => Item "app" "Order" None false (fun _ _ => Decl false (DStruct false (Struct
           [fld "id" (TInt U32); Field "tags" "tags" (TSeq TStr) false false (Some never) true None false no_vattrs [];
            Field "cache" "c" (TInt U8) true true None false None false no_vattrs [];
            Field "parent" "parent" (TOption (TFwd (TAdt 0 [] []))) false false (Some never) false None false no_vattrs [];
            fld "state" (TAdt 1 [] []); flat "at" (TAdt 2 [] [])]))
           [("description", JStr "An order")])
  | 1 => Item "app" "State" None false (fun _ _ => Decl true (DEnum (Internal "t")
           [Variant "Open" "Open" false false false Unit [];
            Variant "Closed" "Closed" false false false (Struct [fld "by" TStr]) [("description", JStr "Round")]]) [])
  | 2 => Item "app" "At" None false (fun _ _ => Decl false (DConv (Some (TAdt 3 [] [])) (Some (TAdt 3 [] [])) (DStruct false Unit)) [])
  | _ => Item "app" "Pos" None false (fun _ _ => Decl false (DStruct false (Struct [fld "x" TF64])) [])
  end.
Definition both_types : list rty :=
  [TAdt 0 [] []; TAdt 1 [] []; TAdt 2 [] []; TAdt 3 [] []; TFwd (TAdt 0 [] []); TOption (TFwd (TAdt 0 [] [])); TSeq TStr; TStr; TInt U32; TInt U8; TF64; TUnit].

Example C67_example :
  (forall u, reach both_items (TAdt 0 [] []) u -> both_ways both_items u)
  /\ document_of both_items (for_serialize (@draft07 unit)) tt 20 (TAdt 0 [] []) <> None.
Proof.
  split; [|vm_compute; discriminate].
  assert (HC : forall x w, In x both_types -> In w (asked both_items x) -> In w both_types).
  { unfold both_types. cbn [In]. intros x w HX. repeat (destruct HX as [<-|HX]; [cbn; intuition (subst; auto 20)|]). destruct HX. }
  assert (HR : forall u, reach both_items (TAdt 0 [] []) u -> In u both_types).
  { intros u HU. induction HU as [|u w _ IH HW]; [now left|]. now apply (HC u). }
  intros u HU. apply HR in HU. unfold both_types in HU. cbn [In] in HU.
  repeat (destruct HU as [<-|HU]; [try exact I|]); try destruct HU; cbn.
  - intros f Hf. repeat (destruct Hf as [<-|Hf]; [split; [reflexivity|intros H1 H2; first [discriminate H1|discriminate H2|split; [reflexivity|cbn; intuition discriminate]]]|]). destruct Hf.
  - intros v Hv. repeat (destruct Hv as [<-|Hv]; [split; [reflexivity|intros _; split; [reflexivity|cbn]]|]); [exact I| |destruct Hv].
    intros f [<-|[]]. split; [reflexivity|]. intros _ _. split; [reflexivity|cbn; intuition discriminate].
  - split; [reflexivity|discriminate].
  - intros f [<-|[]]. split; [reflexivity|]. intros _ _. split; [reflexivity|cbn; intuition discriminate].
  - intros f Hf. repeat (destruct Hf as [<-|Hf]; [split; [reflexivity|intros H1 H2; first [discriminate H1|discriminate H2|split; [reflexivity|cbn; intuition discriminate]]]|]). destruct Hf.
Qed.

(** Each condition is needed. *)
Definition differs (items : nat -> item rval) (t : rty) : Prop :=
  exists a b, document_of items (for_serialize (@draft2020_12 unit)) tt 20 t = Some a
    /\ document_of items (for_deserialize (@draft2020_12 unit)) tt 20 t = Some b /\ a <> b.
Definition two_documents (items : nat -> item rval) (t : rty) : bool :=
  match document_of items (for_serialize (@draft2020_12 unit)) tt 20 t, document_of items (for_deserialize (@draft2020_12 unit)) tt 20 t with
  | Some a, Some b => negb (json_eqb a b)
  | _, _ => false
  end.
Lemma two_documents_differ items t : two_documents items t = true -> differs items t.
Proof.
  unfold two_documents, differs. destruct (document_of _ (for_serialize _) _ _ _) as [a|]; [|discriminate].
  destruct (document_of _ (for_deserialize _) _ _ _) as [b|]; [|discriminate].
  intros H. exists a, b. split; [reflexivity|]. split; [reflexivity|]. intros ->. now rewrite json_eqb_refl in H.
Qed.
Definition one_struct (fs : list (field rval)) (_ : nat) : item rval :=
  Item "app" "One" None false (fun _ _ => Decl false (DStruct false (Struct fs)) []).

(** An Option is always written but may be missing when reading. *)
Theorem C67_option_differs : differs (one_struct [fld "a" (TOption TStr)]) (TAdt 0 [] []).
Proof. apply two_documents_differ. vm_compute. reflexivity. Qed.
Print Assumptions C67_option_differs.
(** A default without skip_serializing_if; a skip_serializing_if without default *)
Theorem C67_default_differs :
  differs (one_struct [Field "a" "a" TStr false false None true None false no_vattrs []]) (TAdt 0 [] [])
  /\ differs (one_struct [Field "a" "a" TStr false false (Some never) false None false no_vattrs []]) (TAdt 0 [] []).
Proof. split; apply two_documents_differ; vm_compute; reflexivity. Qed.
Print Assumptions C67_default_differs.
(** Two names; a field that is only read *)
Theorem C67_names_differs :
  differs (one_struct [Field "a" "b" TStr false false None false None false no_vattrs []]) (TAdt 0 [] [])
  /\ differs (one_struct [Field "a" "a" TStr true false None false None false no_vattrs []]) (TAdt 0 [] []).
Proof. split; apply two_documents_differ; vm_compute; reflexivity. Qed.
Print Assumptions C67_names_differs.
(** Types of other crates that are read from more than they are written to *)
Theorem C67_types_differs : differs both_items TCString /\ differs both_items TBytes /\ differs both_items (TText Decimal).
Proof. repeat split; apply two_documents_differ; vm_compute; reflexivity. Qed.
Print Assumptions C67_types_differs.
