(** C56: names given by rename format strings. *)
From Coq Require Import String Ascii List Bool.
From Verif Require Import Json NameFormat NameFormatProofs Types.
Import ListNotations.
Open Scope string_scope.

(** [compiles consts types s]: the derive macro reports no error for #[schemars(rename = s)], and the
    code it emits compiles: when it calls [format!], the attribute is a template of [format!], each
    argument the template mentions is given or is a const param in scope, and each argument given is
    mentioned. [consts] and [types] are the names of the const and the type params. *)
Definition compiles (consts types : list string) (s : string) : Prop :=
  snd (get_rename_format_type_params consts types s) = []
  /\ match schema_name_expr consts types s with
     | Verbatim _ => True
     | Formatted t given => exists ts, template t ts
         /\ (forall id, In id (args_of ts) -> In id given \/ In id consts)
         /\ (forall id, In id given -> In id (args_of ts))
     end.
(** The value of [schema_name], for the given values of the params. *)
Definition named (consts types : list string) (value : string -> string) (s n : string) : Prop :=
  match schema_name_expr consts types s with
  | Verbatim v => n = v
  | Formatted t _ => exists ts, template t ts /\ n = render value ts
  end.

(** A template that mentions only generic params always compiles, and the name is what [format!]
    makes of the template when each type param stands for its schema name. *)
Theorem C56_template_renders consts types value s ts :
  template s ts -> contains "{" s = true ->
  (forall id, In id (args_of ts) -> In id types \/ In id consts) ->
  compiles consts types s /\ forall n, named consts types value s n <-> n = render value ts.
Proof.
  intros HT HO HP. change "{"%char with open_brace in HO.
  pose proof (template_params consts types s ts HT HO) as HQ.
  destruct (get_rename_format_type_params consts types s) as [params errors] eqn:E. destruct HQ as [Q1 Q2].
  unfold compiles, named, schema_name_expr. rewrite HO, E. cbn [negb fst snd]. split.
  - split; [now apply Q1|]. exists ts. split; [exact HT|]. split.
    + intros id Hid. destruct (HP id Hid) as [H|H]; [left; now apply Q2|now right].
    + intros id Hid. now apply Q2.
  - intros n. split.
    + intros (ts' & [HO' HE] & ->). f_equal. destruct HT as [HT1 HT2]. apply write_inj; [assumption..|congruence].
    + intros ->. now exists ts.
Qed.
Print Assumptions C56_template_renders.

(** Nothing else compiles: an attribute with an opening brace that the macro and [format!] both accept
    is a template that mentions only generic params; the arguments passed are exactly the type params
    that it mentions. *)
Theorem C56_only_templates consts types s : contains "{" s = true -> compiles consts types s ->
  exists ts, template s ts /\ (forall id, In id (args_of ts) -> In id types \/ In id consts)
    /\ forall p, In p (fst (get_rename_format_type_params consts types s)) <-> In p types /\ In p (args_of ts).
Proof.
  intros HO [HE HC]. unfold schema_name_expr in HC. change "{"%char with open_brace in HO. rewrite HO in HC. cbn [negb] in HC.
  destruct HC as (ts & HT & H1 & H2). exists ts. split; [exact HT|].
  pose proof (template_params consts types s ts HT HO) as HQ.
  destruct (get_rename_format_type_params consts types s) as [params errors]. cbn [fst snd] in *. destruct HQ as [Q1 Q2].
  split; [now apply Q1|exact Q2].
Qed.
Print Assumptions C56_only_templates.

(** The macro itself rejects a template exactly when it mentions something that is not a generic param. *)
Theorem C56_rejects_exactly consts types s ts : template s ts -> contains "{" s = true ->
  (snd (get_rename_format_type_params consts types s) = [] <-> forall id, In id (args_of ts) -> In id types \/ In id consts).
Proof.
  intros HT HO. pose proof (template_params consts types s ts HT HO) as HQ.
  destruct (get_rename_format_type_params consts types s). now destruct HQ.
Qed.
Print Assumptions C56_rejects_exactly.

(** An attribute without an opening brace is the name, as it is. *)
Theorem C56_plain consts types value s : contains "{" s = false ->
  compiles consts types s /\ forall n, named consts types value s n <-> n = s.
Proof.
  intros HO. unfold compiles, named, schema_name_expr, get_rename_format_type_params. change "{"%char with open_brace in HO.
  rewrite HO. cbn. repeat split; auto.
Qed.
Print Assumptions C56_plain.

Example C56_example :
  let s := "{{new-{W}/{T}/{T}-{INT}}}" in
  let ts := [Open; Char "n"; Char "e"; Char "w"; Char "-"; Arg "W"; Char "/"; Arg "T"; Char "/"; Arg "T"; Char "-"; Arg "INT"; Close] in
  template s ts
  /\ get_rename_format_type_params ["INT"] ["T"; "U"; "W"] s = (["W"; "T"; "T"], [])
  /\ get_rename_format_type_params ["INT"] ["T"; "U"; "W"] "} } {T} {X} {T::test} } {T"
     = (["T"], [UnmatchedClose; NotAParam "X"; UnmatchedClose; NotAParam "T::test"; UnmatchedOpen])
  /\ render (fun id => if String.eqb id "T" then "string" else if String.eqb id "W" then "uint8" else "12") ts = "{new-uint8/string/string-12}".
Proof.
  cbv zeta. split; [split; [|reflexivity]|vm_compute; auto].
  intros t Ht. cbn [In] in Ht. repeat (destruct Ht as [<-|Ht]; [cbn; repeat split; discriminate|]). destruct Ht.
Qed.

(** The derive model of Types.v computes these names: the pieces of a template, with each param
    replaced by its position, give the rendered template. *)
Fixpoint position (x : string) (l : list string) : nat :=
  match l with [] => 0 | y :: r => if String.eqb x y then 0 else S (position x r) end.
Definition pieces (consts types : list string) (ts : list token) : list piece :=
  map (fun t => match t with
    | Char c => Lit (String c "") | Open => Lit "{" | Close => Lit "}"
    | Arg id => if is_param types id then TypeParam (position id types) else ConstParam (position id consts) end) ts.
Theorem C56_adt_name {X} (it : item X) consts types ts cvals names :
  it_format it = Some (pieces consts types ts) ->
  adt_name it cvals names
  = render (fun id => if is_param types id then nth (position id types) names "" else nth (position id consts) cvals "") ts.
Proof.
  intros HF. unfold adt_name. rewrite HF. clear HF. unfold pieces. rewrite map_map.
  assert (HC : forall x l, cat (x :: l) = x ++ cat l).
  { intros x [|y l]; [unfold cat; cbn [join]; induction x as [|a x IH]; cbn; congruence|reflexivity]. }
  induction ts as [|t ts IH]; [reflexivity|]. cbn [map render]. rewrite HC, IH. destruct t; try reflexivity.
  destruct (is_param types id); reflexivity.
Qed.
Print Assumptions C56_adt_name.

(** Finding: the doubled closing brace of the template syntax is a single brace in the name only if the
    attribute also has an opening brace; without one the name keeps both, and a lone closing brace, which
    is an error elsewhere, is taken as it is. *)
Theorem C56_closing_brace_refuted :
  (exists s ts value n, template s ts /\ compiles [] ["T"] s /\ named [] ["T"] value s n /\ n <> render value ts)
  /\ (exists s value n, compiles [] ["T"] s /\ named [] ["T"] value s n /\ forall ts, ~ template s ts).
Proof.
  split.
  - exists "a}}", [Char "a"; Close], (fun x => x), "a}}". split; [|split; [|split]].
    + split; [|reflexivity]. intros t [<-|[<-|[]]]; cbn; [split; discriminate|exact I].
    + split; [reflexivity|exact I].
    + reflexivity.
    + discriminate.
  - exists "a}", (fun x => x), "a}". split; [split; [reflexivity|exact I]|]. split; [reflexivity|].
    intros ts [HO HE]. destruct ts as [|t ts]; [discriminate|]. pose proof (HO t (or_introl eq_refl)) as HT.
    destruct t as [c| | |id]; cbn in HE; try discriminate. injection HE as <- HE.
    destruct ts as [|t ts]; [discriminate|]. pose proof (HO t (or_intror (or_introl eq_refl))) as HT2.
    destruct t as [c| | |id]; cbn in HE; try discriminate. injection HE as <- HE. destruct HT2 as [_ HT2]. now apply HT2.
Qed.
Print Assumptions C56_closing_brace_refuted.

(** Finding: the macro's own check is not complete: it accepts text that is no template, and leaves it
    to [format!] to reject it. *)
Theorem C56_check_alone_refuted : exists s, contains "{" s = true
  /\ snd (get_rename_format_type_params [] ["T"] s) = [] /\ ~ compiles [] ["T"] s.
Proof.
  exists "{T{{}". split; [reflexivity|]. split; [reflexivity|]. intros HC.
  destruct (C56_only_templates [] ["T"] "{T{{}" eq_refl HC) as (ts & [HO HE] & _ & _).
  destruct ts as [|t ts]; [discriminate|]. pose proof (HO t (or_introl eq_refl)) as HT.
  destruct t as [c| | |id]; cbn in HE; try discriminate.
  - injection HE as <- _. destruct HT as [HT _]. now apply HT.
  - injection HE as HE. destruct HT as [HT1 HT2]. assert (HS := f_equal (split_once close_brace) HE).
    rewrite str_app_assoc in HS. cbn [append] in HS. change "}"%char with close_brace in HS. rewrite split_once_text in HS by exact HT2.
    vm_compute in HS. injection HS as <- _. discriminate HT1.
Qed.
Print Assumptions C56_check_alone_refuted.
