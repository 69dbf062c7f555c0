(** Property theorems C45: the schema id of a type determines its schema.

    The types covered: everything built from the standard types, forwarding types and derived types
    with at most one generic parameter. With two parameters the claim is false (below). *)
From Coq Require Import String Ascii List ZArith Bool Lia.
From Verif Require Import Json JsonFacts SchemaApi Pointer Private Generate SerValue ValidationAttrs Types TypeId TypeSim.
Import ListNotations.
Open Scope string_scope.
Open Scope list_scope.

(** Two answers of the generator: the same schema, and the generator is left in the same state *)
Definition same_answer {Ty St} (a b : option (json * gen Ty St)) : Prop :=
  match a, b with
  | Some (s, g), Some (s', g') => s = s' /\ visible g = visible g'
  | None, None => True
  | _, _ => False
  end.

(** The derived types [N] have different paths, which are made of identifiers and are not those of
    standard types; [arity] gives the numbers of their const and type parameters, at most one. *)
Definition distinct_items {X} (items : nat -> item X) (N : nat -> Prop) (arity : nat -> nat * nat) : Prop :=
  (forall n m, N n -> N m -> path_of items n = path_of items m -> n = m)
  /\ (forall n, N n -> word (path_of items n) /\ ~ In (path_of items n) std_words)
  /\ (forall n, N n -> fst (arity n) + snd (arity n) <= 1).

(** A type whose derived types are in [N] and have as many arguments as they have parameters, const
    arguments being identifiers or numbers; forwarding types may occur anywhere but in arguments. *)
Definition simple {X} (items : nat -> item X) (N : nat -> Prop) (arity : nat -> nat * nat) (t : rty) : Prop :=
  normal N arity (erase t).

Lemma distinct_items_ok {X} (items : nat -> item X) N arity : distinct_items items N arity -> items_ok items N arity.
Proof.
  intros (H1 & H2 & H3). constructor; auto; try apply H2. intros n Hn. specialize (H3 n Hn).
  destruct (arity n) as [[|[|a]] [|[|b]]]; cbn in H3; auto; lia.
Qed.

Theorem C45_id_determines_schema_partial : forall X St (items : nat -> item X) N arity t t',
  distinct_items items N arity -> simple items N arity t -> simple items N arity t' ->
  type_id items t = type_id items t' ->
  erase t = erase t'
  /\ type_name items t = type_name items t'
  /\ type_inline items t = type_inline items t'
  /\ (forall fuel (g : gen rty St), same_answer (json_schema (info items) fuel t g) (json_schema (info items) fuel t' g)
        /\ same_answer (subschema_for (info items) (json_schema (info items) fuel) t g)
                       (subschema_for (info items) (json_schema (info items) fuel) t' g)
        /\ same_answer (root_schema_for (info items) (json_schema (info items) fuel) t g)
                       (root_schema_for (info items) (json_schema (info items) fuel) t' g)).
Proof.
  intros X St items N arity t t' HI HS HS' HE. apply distinct_items_ok in HI.
  assert (HL : erase t = erase t').
  { destruct (id_readable items N arity HI (erase t) (erase t') "" "" HS HS' I I) as [-> _]; [|reflexivity]. now rewrite !id_erase, HE. }
  destruct (like_facts items t t' HL) as (_ & H2 & H3). refine (conj HL (conj H2 (conj H3 _))). intros fuel g.
  split; [|split].
  - apply schema_same; [exact HL|reflexivity].
  - apply sub_same; [|exact HL|reflexivity]. intros; now apply schema_same.
  - apply root_same; [|exact HL|reflexivity]. intros; now apply schema_same.
Qed.
Print Assumptions C45_id_determines_schema_partial.

(** A program with a generic type: Vec<Box<a::W<u8>>> and a slice of Arc<a::W<u8>>, and a::W<u16> which differs *)
Definition ex_field (name : string) (t : rty) : field unit := Field name name t false false None false None false no_vattrs [].
Definition ex_struct (m n : string) (fs : list string -> list rty -> list (field unit)) : item unit :=
  Item m n None false (fun cs ts => Decl false (DStruct false (Struct (fs cs ts))) []).
Definition ex_items (n : nat) : item unit :=
  match n with
  | 0 => ex_struct "a" "W" (fun _ ts => [ex_field "inner" (nth 0 ts TUnit)])
  | _ => ex_struct "a" "Leaf" (fun _ _ => [])
  end.
Definition ex_arity (n : nat) : nat * nat := match n with 0 => (0, 1) | _ => (0, 0) end.

Example C45_example :
  let t := TSeq (TFwd (TAdt 0 [] [TAdt 1 [] []])) in
  let t' := TFwd (TSeq (TWeak (TAdt 0 [] [TAdt 1 [] []]))) in
  distinct_items ex_items (fun n => n <= 1) ex_arity
  /\ simple ex_items (fun n => n <= 1) ex_arity t /\ simple ex_items (fun n => n <= 1) ex_arity t'
  /\ type_id ex_items t = type_id ex_items t' /\ t <> t'
  /\ simple ex_items (fun n => n <= 1) ex_arity (TSeq (TAdt 0 [] [TInt U8]))
  /\ type_id ex_items t <> type_id ex_items (TSeq (TAdt 0 [] [TInt U8])).
Proof.
  cbv zeta. split; [|split; [|split; [|split; [|split; [|split]]]]].
  - split; [|split].
    + intros [|[|n]] [|[|m]] Hn Hm; try lia; intros H; try reflexivity; discriminate.
    + intros [|[|n]] Hn; try lia; (split; [reflexivity|]); intros H; cbn in H; repeat (destruct H as [H|H]; [discriminate|]); exact H.
    + intros [|[|n]] Hn; try lia; cbn; lia.
  - cbn. repeat split; auto; lia.
  - cbn. repeat split; auto; lia.
  - reflexivity.
  - discriminate.
  - cbn. repeat split; auto; lia.
  - vm_compute. discriminate.
Qed.

(** ** Where ids clash *)
Definition fresh (t : rty) (items : nat -> item unit) : option json :=
  option_map fst (root_schema_for (info items) (json_schema (info items) 10) t
    (new_gen (St := unit) (Settings "/$defs" None [] false Serialize) tt)).
Definition prop (p : string) (doc : json) : option json := s_pointer doc (String "#" (String "/" ("properties/" ++ p)))%string.

(** The arguments are not separated: S<1, 23> and S<12, 3> have one id although their schemas
    differ, and a struct with fields of both types refers to one definition twice. *)
Definition two_consts (n : nat) : item unit :=
  match n with
  | 0 => ex_struct "m" "S" (fun cs _ => [ex_field "xs" (TArray (if String.eqb (nth 0 cs "") "1" then 1 else 12) (TInt U8))])
  | _ => ex_struct "m" "Both" (fun _ _ => [ex_field "a" (TAdt 0 ["1"; "23"] []); ex_field "b" (TAdt 0 ["12"; "3"] [])])
  end.
Theorem C45_const_parameters_refuted : exists items a b both,
  type_id items a = type_id items b
  /\ fresh a items <> fresh b items
  /\ exists doc, fresh both items = Some doc
     /\ prop "a" doc = Some (new_ref "#/$defs/S") /\ prop "b" doc = Some (new_ref "#/$defs/S").
Proof.
  exists two_consts, (TAdt 0 ["1"; "23"] []), (TAdt 0 ["12"; "3"] []), (TAdt 1 [] []).
  split; [reflexivity|]. split; [vm_compute; discriminate|]. eexists. split; [vm_compute; reflexivity|]. split; vm_compute; reflexivity.
Qed.
Print Assumptions C45_const_parameters_refuted.

(** The same with type arguments: P<x::A, bc::D> and P<x::Ab, c::D>, with types A and Ab in the
    crate x and types D in the crates bc and c. All types have different paths. *)
Definition two_types (n : nat) : item unit :=
  match n with
  | 0 => ex_struct "m" "P" (fun _ ts => [ex_field "l" (nth 0 ts TUnit); ex_field "r" (nth 1 ts TUnit)])
  | 1 => ex_struct "x" "A" (fun _ _ => [ex_field "in_A" TBool])
  | 2 => ex_struct "x" "Ab" (fun _ _ => [ex_field "in_Ab" TBool])
  | 3 => ex_struct "bc" "D" (fun _ _ => [ex_field "in_bc" TBool])
  | 4 => ex_struct "c" "D" (fun _ _ => [ex_field "in_c" TBool])
  | _ => ex_struct "m" "Both" (fun _ _ => [ex_field "a" (TAdt 0 [] [TAdt 1 [] []; TAdt 3 [] []]);
                                          ex_field "b" (TAdt 0 [] [TAdt 2 [] []; TAdt 4 [] []])])
  end.
Theorem C45_type_parameters_refuted : exists items a b both,
  (forall n m, n <= 5 -> m <= 5 -> path_of items n = path_of items m -> n = m)
  /\ type_id items a = type_id items b
  /\ fresh a items <> fresh b items
  /\ exists doc, fresh both items = Some doc
     /\ prop "a" doc = Some (new_ref "#/$defs/P") /\ prop "b" doc = Some (new_ref "#/$defs/P").
Proof.
  exists two_types, (TAdt 0 [] [TAdt 1 [] []; TAdt 3 [] []]), (TAdt 0 [] [TAdt 2 [] []; TAdt 4 [] []]), (TAdt 5 [] []).
  split.
  { intros [|[|[|[|[|[|n]]]]]] [|[|[|[|[|[|m]]]]]] Hn Hm; try lia; intros H; try reflexivity; vm_compute in H; discriminate. }
  split; [reflexivity|]. split; [vm_compute; discriminate|]. eexists. split; [vm_compute; reflexivity|]. split; vm_compute; reflexivity.
Qed.
Print Assumptions C45_type_parameters_refuted.

(** Two types of one module renamed to the same name, or declared in two functions of the module,
    have one id. *)
Definition renamed (n : nat) : item unit :=
  match n with
  | 0 => ex_struct "m" "Same" (fun _ _ => [ex_field "x" TBool])
  | 1 => ex_struct "m" "Same" (fun _ _ => [ex_field "y" TStr])
  | _ => ex_struct "m" "Both" (fun _ _ => [ex_field "a" (TAdt 0 [] []); ex_field "b" (TAdt 1 [] [])])
  end.
Theorem C45_same_path_refuted : exists items a b both,
  type_id items a = type_id items b
  /\ fresh a items <> fresh b items
  /\ exists doc, fresh both items = Some doc
     /\ prop "a" doc = Some (new_ref "#/$defs/Same") /\ prop "b" doc = Some (new_ref "#/$defs/Same").
Proof.
  exists renamed, (TAdt 0 [] []), (TAdt 1 [] []), (TAdt 2 [] []).
  split; [reflexivity|]. split; [vm_compute; discriminate|]. eexists. split; [vm_compute; reflexivity|]. split; vm_compute; reflexivity.
Qed.
Print Assumptions C45_same_path_refuted.

(** ArrayVec<T, N> has no id of its own, so its id is its name, which holds only the name of T: the
    ids of W<ArrayVec<a::T, 2>> and W<ArrayVec<b::T, 2>> are one although all types have different
    paths. *)
Definition array_vecs (n : nat) : item unit :=
  match n with
  | 0 => ex_struct "m" "W" (fun _ ts => [ex_field "inner" (nth 0 ts TUnit)])
  | 1 => ex_struct "a" "T" (fun _ _ => [ex_field "x" TBool])
  | 2 => ex_struct "b" "T" (fun _ _ => [ex_field "y" TStr])
  | _ => ex_struct "m" "Both" (fun _ _ => [ex_field "a" (TAdt 0 [] [TArrayVec 2 (TAdt 1 [] [])]);
                                          ex_field "b" (TAdt 0 [] [TArrayVec 2 (TAdt 2 [] [])])])
  end.
Theorem C45_arrayvec_refuted : exists items a b both,
  (forall n m, n <= 3 -> m <= 3 -> path_of items n = path_of items m -> n = m)
  /\ type_id items a = type_id items b
  /\ fresh a items <> fresh b items
  /\ exists doc, fresh both items = Some doc
     /\ prop "a" doc = Some (new_ref "#/$defs/W") /\ prop "b" doc = Some (new_ref "#/$defs/W").
Proof.
  exists array_vecs, (TAdt 0 [] [TArrayVec 2 (TAdt 1 [] [])]), (TAdt 0 [] [TArrayVec 2 (TAdt 2 [] [])]), (TAdt 3 [] []).
  split.
  { intros [|[|[|[|n]]]] [|[|[|[|m]]]] Hn Hm; try lia; intros H; try reflexivity; vm_compute in H; discriminate. }
  split; [reflexivity|]. split; [vm_compute; discriminate|]. eexists. split; [vm_compute; reflexivity|]. split; vm_compute; reflexivity.
Qed.
Print Assumptions C45_arrayvec_refuted.
