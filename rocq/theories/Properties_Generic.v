(** C57: a type param that is not part of the schema id of a generic type has no influence on its schema. *)
From Coq Require Import String List Bool Arith Lia.
From Verif Require Import Json JsonFacts SchemaApi Pointer Private Generate Types GenericParams GenericParamsProofs Properties_Id.
Import ListNotations.
Open Scope string_scope.
Open Scope list_scope.

(** [a] and [b] do the same on every generator, whatever the implementations they call do. *)
Definition same_code {X} (items : nat -> item X) (a b : decl X) : Prop :=
  forall St (inf : rty -> tyinfo rty St) js c g,
    run_prog inf js (decl_prog items c a) g = run_prog inf js (decl_prog items c b) g.

(** The reading of types: PhantomData<T> is the same whatever T is, and macros do not look at the params. *)
Definition phantom_ignores (path_meaning : list rty -> option rty -> list string -> string -> list rty -> rty) : Prop :=
  forall q p p' idents text args args', last idents "" = "PhantomData" ->
    path_meaning q p idents text args = path_meaning q p' idents text args'.
Definition macro_ignores (macro_meaning : string -> (string -> rty) -> rty) : Prop :=
  forall tokens i i', macro_meaning tokens i = macro_meaning tokens i'.

(** Two instances of a generic type whose relevant params are the same have the same derived
    implementation. [data_ok]: no [schema_with] function or [with] attribute of a variant depends on the
    params, the field of a newtype is not skipped, and the types of from and into attributes mention
    no params but those that the fields mention. *)
Theorem C57_irrelevant_params_partial X (items : nat -> item X) pm cm mm om all rename (g : gdecl X) inst inst' :
  phantom_ignores pm -> macro_ignores mm -> ~ In "PhantomData" all ->
  NoDup all -> NoDup rename -> incl rename all ->
  data_ok pm cm mm om all (gd_data g) ->
  (forall p, In p (relevant_type_params all rename g) -> inst p = inst' p) ->
  same_code items (inst_decl pm cm mm om all inst g) (inst_decl pm cm mm om all inst' g).
Proof.
  intros HPH HM HNP ND NDR HI HO HA St inf js c g0. apply decl_prog_same; [reflexivity|reflexivity|].
  apply data_same; try assumption. intros p Hp. apply HA. unfold relevant_type_params.
  destruct (List.length rename <? List.length all)%nat eqn:E; [apply in_or_app; now right|].
  apply Nat.ltb_ge in E. apply (NoDup_length_incl NDR E HI). now apply visit_data_all in Hp.
Qed.
Print Assumptions C57_irrelevant_params_partial.

(** The params that the name of the type mentions (C56) are relevant, so types with one id have one
    name. All relevant params are params. *)
Theorem C57_relevant_bounds X all rename (g : gdecl X) : incl rename all ->
  incl rename (relevant_type_params all rename g) /\ incl (relevant_type_params all rename g) all.
Proof.
  intros HI. unfold relevant_type_params. destruct (List.length rename <? List.length all)%nat.
  - split; [intros p Hp; apply in_or_app; now left|]. intros p Hp. apply in_app_or in Hp as [Hp|Hp]; [now apply HI|now apply visit_data_all in Hp].
  - split; [intros p Hp; exact Hp|exact HI].
Qed.
Print Assumptions C57_relevant_bounds.

(** A param that occurs in a field which is not skipped is relevant: a field of the param's own type
    or of a type with such an argument, outside of PhantomData. *)
Inductive mentions (p : string) : sty -> Prop :=
| M_param text args : p <> "PhantomData" -> mentions p (SPath [] false [p] text args)
| M_assoc q rest text args : last (p :: rest) "" <> "PhantomData" -> mentions p (SPath q false (p :: rest) text args)
| M_qself t q lead idents text args : In t q -> mentions p t -> mentions p (SPath q lead idents text args)
| M_arg t q lead idents text args : In t args -> mentions p t -> last idents "" <> "PhantomData" ->
    mentions p (SPath q lead idents text args)
| M_elem t text elems : In t elems -> mentions p t -> mentions p (SCompound text elems).
Fixpoint fields_of {X} (d : gdata X) : list (gfield X) :=
  match d with
  | GDConv _ _ own => fields_of own
  | GDStruct _ s => style_fields s
  | GDEnum _ vs => flat_map (fun v => style_fields (gv_style v))
                     (filter (fun v => negb (v_skip_de (gv_attrs v) && v_skip_ser (gv_attrs v))) vs)
  end.
Theorem C57_used_params X all rename (g : gdecl X) f t p :
  NoDup all -> NoDup rename -> incl rename all ->
  In f (fields_of (gd_data g)) -> f_skip_de (gf_attrs f) && f_skip_ser (gf_attrs f) = false ->
  gf_source f = OwnType t \/ gf_source f = WithType t ->
  In p all -> mentions p t -> In p (relevant_type_params all rename g).
Proof.
  intros ND NDR HI HF HL HS HP HM. unfold relevant_type_params.
  destruct (List.length rename <? List.length all)%nat eqn:E.
  2: { apply Nat.ltb_ge in E. now apply (NoDup_length_incl NDR E HI). }
  apply in_or_app. right. unfold visit_data. apply in_flat_map. exists f. split.
  - induction (gd_data g) as [def s|tg vs|fr into own IH]; cbn [fields_of visited_fields] in HF |- *; [| |now apply IH].
    + apply filter_In. split; [exact HF|]. unfold field_needs_bound. now rewrite HL.
    + apply in_flat_map in HF as (v & Hv & HF). apply filter_In in Hv as [Hv HV]. apply in_flat_map. exists v. split; [exact Hv|].
      unfold variant_needs_bound. rewrite HV. apply filter_In. split; [exact HF|]. unfold field_needs_bound. now rewrite HL.
  - assert (HV : In p (visit_type all t)).
    { assert (HB : smem p all = true) by (apply existsb_exists; exists p; split; [exact HP|apply String.eqb_refl]).
      clear - HM HB. induction HM as [text args HN|q rest text args HN|t q lead ids text args HT HM IH|t q lead ids text args HT HM IH HN|t text elems HT HM IH]; cbn [visit_type].
      - unfold is_phantom. cbn [last]. apply String.eqb_neq in HN. rewrite HN. cbn [first_param]. rewrite HB. apply in_or_app. right. now left.
      - unfold is_phantom. apply String.eqb_neq in HN. rewrite HN. cbn [first_param]. rewrite HB. apply in_or_app. right. now left.
      - apply in_or_app. left. apply in_flat_map. now exists t.
      - apply in_or_app. right. unfold is_phantom. apply String.eqb_neq in HN. rewrite HN. apply in_or_app. right. apply in_flat_map. now exists t.
      - apply in_flat_map. now exists t. }
    destruct HS as [-> | ->]; exact HV.
Qed.
Print Assumptions C57_used_params.

(** ** Example: struct S<T, U, V> { a: Vec<T>, #[serde(skip)] b: U, c: (u8, PhantomData<V>) } *)
Definition ex_pm (q : list rty) (p : option rty) (idents : list string) (text : string) (args : list rty) : rty :=
  if is_phantom idents then TFwd TUnit
  else match idents, args with
  | ["Vec"], [t] => TSeq t
  | ["u8"], _ => TInt U8
  | _, _ => match p with Some t => t | None => TUnit end
  end.
Definition ex_cm (text : string) (elems : list rty) : rty := TTuple elems.
Definition ex_mm (tokens : string) (i : string -> rty) : rty := TUnit.
Definition ex_om (text : string) : rty := TUnit.
Definition param (p : string) : sty := SPath [] false [p] "" [].
Definition skipped (name : string) : field unit := Field name name TUnit true true None false None false ValidationAttrs.no_vattrs [].
Definition ex_g : gdecl unit :=
  GDecl false (GDStruct false (GStruct
    [GField (ex_field "a" TUnit) (OwnType (SPath [] false ["Vec"] "" [param "T"]));
     GField (skipped "b") (OwnType (param "U"));
     GField (ex_field "c" TUnit) (OwnType (SCompound "tuple" [param "u8"; SPath [] false ["PhantomData"] "" [param "V"]]))])) [].
Example C57_example :
  let all := ["T"; "U"; "V"] in
  relevant_type_params all [] ex_g = ["T"]
  /\ relevant_type_params all ["V"] ex_g = ["V"; "T"]
  /\ phantom_ignores ex_pm /\ macro_ignores ex_mm /\ data_ok ex_pm ex_cm ex_mm ex_om all (gd_data ex_g)
  /\ (let i u v p := if String.eqb p "T" then TStr else if String.eqb p "U" then u else v in
      inst_decl ex_pm ex_cm ex_mm ex_om all (i TBool TChar) ex_g <> inst_decl ex_pm ex_cm ex_mm ex_om all (i TStr TUnit) ex_g
      /\ map f_ty (match d_data (inst_decl ex_pm ex_cm ex_mm ex_om all (i TBool TChar) ex_g) with DStruct _ (Struct fs) => fs | _ => [] end)
         = [TSeq TStr; TBool; TTuple [TInt U8; TFwd TUnit]]).
Proof.
  cbv zeta. split; [reflexivity|]. split; [reflexivity|]. split; [|split; [|split; [|split]]].
  - intros q p p' idents text args args' HL. unfold ex_pm, is_phantom. rewrite HL. reflexivity.
  - intros tokens i i'. reflexivity.
  - split; [|exact I]. intros f Hf. cbn in Hf. repeat (destruct Hf as [<-|Hf]; [exact I|]). destruct Hf.
  - cbn. intros HE. injection HE. discriminate.
  - reflexivity.
Qed.

(** ** Findings
    [instances g]: a program with the instances S<u8> and S<String> of a declaration with one type param
    T, and a struct with a field of either type. T being irrelevant, both instances have the path of the
    declaration as their id (lib.rs:117-124), like the types 0 and 1 here. *)
Definition instances (pm : list rty -> option rty -> list string -> string -> list rty -> rty) (mm : string -> (string -> rty) -> rty)
    (g : gdecl unit) (n : nat) : item unit :=
  match n with
  | 0 => Item "m" "S" None false (fun _ _ => inst_decl pm ex_cm mm ex_om ["T"] (fun _ => TInt U8) g)
  | 1 => Item "m" "S" None false (fun _ _ => inst_decl pm ex_cm mm ex_om ["T"] (fun _ => TStr) g)
  | _ => ex_struct "m" "Both" (fun _ _ => [ex_field "a" (TAdt 0 [] []); ex_field "b" (TAdt 1 [] [])])
  end.
(** T is not relevant, the instances have one id and different schemas, and the struct refers to one
    definition for both. *)
Definition clash pm mm (g : gdecl unit) : Prop :=
  relevant_type_params ["T"] [] g = []
  /\ type_id (instances pm mm g) (TAdt 0 [] []) = type_id (instances pm mm g) (TAdt 1 [] [])
  /\ fresh (TAdt 0 [] []) (instances pm mm g) <> fresh (TAdt 1 [] []) (instances pm mm g)
  /\ exists doc, fresh (TAdt 2 [] []) (instances pm mm g) = Some doc
       /\ prop "a" doc = Some (new_ref "#/$defs/S") /\ prop "b" doc = Some (new_ref "#/$defs/S").
Ltac show_clash := split; [reflexivity|]; split; [reflexivity|]; split; [vm_compute; discriminate|]; eexists; split; [vm_compute; reflexivity|]; split; vm_compute; reflexivity.

(** struct S<T: JsonSchema> { #[schemars(schema_with = "schema_of::<T>")] x: T } *)
Theorem C57_schema_with_refuted : exists g, clash ex_pm ex_mm g
  /\ gd_data g = GDStruct false (GStruct [GField (ex_field "x" TUnit) (WithFunction (fun inst => inst "T"))]).
Proof. exists (GDecl false (GDStruct false (GStruct [GField (ex_field "x" TUnit) (WithFunction (fun inst => inst "T"))])) []). split; [show_clash|reflexivity]. Qed.
Print Assumptions C57_schema_with_refuted.

(** struct S<T: JsonSchema> { x: identity!(T) } *)
Theorem C57_macro_refuted : exists g, clash ex_pm (fun _ inst => inst "T") g
  /\ gd_data g = GDStruct false (GStruct [GField (ex_field "x" TUnit) (OwnType (SMacro "identity!(T)"))]).
Proof. exists (GDecl false (GDStruct false (GStruct [GField (ex_field "x" TUnit) (OwnType (SMacro "identity!(T)"))])) []). split; [show_clash|reflexivity]. Qed.
Print Assumptions C57_macro_refuted.

(** struct S<T: JsonSchema>(#[serde(skip)] T) *)
Theorem C57_skipped_newtype_refuted : exists g, clash ex_pm ex_mm g
  /\ gd_data g = GDStruct false (GNewtype (GField (skipped "0") (OwnType (param "T")))).
Proof. exists (GDecl false (GDStruct false (GNewtype (GField (skipped "0") (OwnType (param "T"))))) []). split; [show_clash|reflexivity]. Qed.
Print Assumptions C57_skipped_newtype_refuted.

(** enum S<T: JsonSchema> { #[schemars(with = "T")] A(PhantomData<T>) } *)
Theorem C57_variant_with_refuted : exists g, clash ex_pm ex_mm g
  /\ gd_data g = GDEnum External [GVariant (Variant "A" "A" false false false Unit []) (Some (WithType (param "T")))
                   (GNewtype (GField (ex_field "0" TUnit) (OwnType (SPath [] false ["PhantomData"] "" [param "T"]))))].
Proof.
  exists (GDecl false (GDEnum External [GVariant (Variant "A" "A" false false false Unit []) (Some (WithType (param "T")))
                   (GNewtype (GField (ex_field "0" TUnit) (OwnType (SPath [] false ["PhantomData"] "" [param "T"]))))]) []).
  split; [show_clash|reflexivity].
Qed.
Print Assumptions C57_variant_with_refuted.

(** struct S<T: JsonSchema> { x: mine::PhantomData<T> }, with a type of the user's of that name that
    has a T in it *)
Theorem C57_own_phantom_refuted : exists g, clash (fun _ _ _ _ args => nth 0 args TUnit) ex_mm g
  /\ gd_data g = GDStruct false (GStruct [GField (ex_field "x" TUnit) (OwnType (SPath [] false ["mine"; "PhantomData"] "" [param "T"]))]).
Proof.
  exists (GDecl false (GDStruct false (GStruct [GField (ex_field "x" TUnit) (OwnType (SPath [] false ["mine"; "PhantomData"] "" [param "T"]))])) []).
  split; [show_clash|reflexivity].
Qed.
Print Assumptions C57_own_phantom_refuted.

(** #[serde(from = "T", into = "T")] struct S<T: JsonSchema> { x: PhantomData<T> } *)
Theorem C57_from_refuted : exists g, clash ex_pm ex_mm g
  /\ gd_data g = GDConv (Some (param "T")) (Some (param "T")) (GDStruct false (GStruct
       [GField (ex_field "x" TUnit) (OwnType (SPath [] false ["PhantomData"] "" [param "T"]))])).
Proof.
  exists (GDecl false (GDConv (Some (param "T")) (Some (param "T")) (GDStruct false (GStruct
       [GField (ex_field "x" TUnit) (OwnType (SPath [] false ["PhantomData"] "" [param "T"]))]))) []).
  split; [show_clash|reflexivity].
Qed.
Print Assumptions C57_from_refuted.
