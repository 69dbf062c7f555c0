(** Declarations that differ only in types that no contract uses do the same on every generator. *)
From Coq Require Import String List Bool Arith.
From Verif Require Import Json SchemaApi Private Generate Types GenericParams.
Import ListNotations.
Open Scope string_scope.
Open Scope list_scope.

Section Sim.
Context {X St : Type}.
Variable items : nat -> item X.
Variable info' : rty -> tyinfo rty St.
Variable js : rty -> gen rty St -> option (json * gen rty St).
Notation prog := (prog rty St).
Notation run p g := (run_prog info' js p g).

Definition same (p q : prog) : Prop := forall g, run p g = run q g.

Lemma same_refl p : same p p. Proof. intros g. reflexivity. Qed.
Lemma same_sub t (k k' : json -> prog) : (forall s, same (k s) (k' s)) -> same (Sub t k) (Sub t k').
Proof. intros H g. cbn [run_prog]. destruct (subschema_for info' js t g) as [[s g']|]; [apply H|reflexivity]. Qed.
Lemma same_call t (k k' : json -> prog) : (forall s, same (k s) (k' s)) -> same (Call t k) (Call t k').
Proof. intros H g. cbn [run_prog]. destruct (js t g) as [[s g']|]; [apply H|reflexivity]. Qed.
Lemma same_settings (k k' : settings St -> prog) : (forall s, same (k s) (k' s)) -> same (ReadSettings k) (ReadSettings k').
Proof. intros H g. cbn [run_prog]. apply H. Qed.

Definition dead (f : field X) : Prop := f_skip_de f = true /\ f_skip_ser f = true.
Definition field_sim (f f' : field X) : Prop := f = f' \/ dead f /\ dead f'.
Inductive style_sim : style X -> style X -> Prop :=
| SS_unit : style_sim Unit Unit
| SS_newtype f : style_sim (Newtype f) (Newtype f)
| SS_tuple fs fs' : Forall2 field_sim fs fs' -> style_sim (Tuple fs) (Tuple fs')
| SS_struct fs fs' : Forall2 field_sim fs fs' -> style_sim (Struct fs) (Struct fs').
Definition dead_variant (v : variant X) : Prop := v_skip_de v = true /\ v_skip_ser v = true.
Definition variant_sim (v v' : variant X) : Prop :=
  v_ser v = v_ser v' /\ v_de v = v_de v' /\ v_skip_ser v = v_skip_ser v' /\ v_skip_de v = v_skip_de v'
  /\ v_untagged v = v_untagged v' /\ v_meta v = v_meta v' /\ v_is_unit v = v_is_unit v'
  /\ (dead_variant v \/ style_sim (v_style v) (v_style v')).

Lemma dead_included c f : dead f -> included (f_skip_de f) (f_skip_ser f) c = false.
Proof. intros [H1 H2]. destruct c; cbn; [now rewrite H1|now rewrite H2]. Qed.

Lemma field_schema_same (f : field X) (k k' : json -> prog) : (forall s, same (k s) (k' s)) -> same (field_schema f k) (field_schema f k').
Proof. intros H. unfold field_schema. destruct (f_required f); [apply same_call|apply same_sub]; intros s; apply H. Qed.

Lemma struct_fields_same def c fs fs' : Forall2 field_sim fs fs' -> forall s (k k' : json -> prog), (forall x, same (k x) (k' x)) ->
  same (struct_fields def c fs s k) (struct_fields def c fs' s k').
Proof.
  induction 1 as [|f f' fs fs' HF HR IH]; intros s k k' HK; cbn [struct_fields]; [apply HK|].
  destruct HF as [<-|[D1 D2]].
  - destruct (negb (included (f_skip_de f) (f_skip_ser f) c)); [now apply IH|]. destruct (f_flatten f).
    + apply same_call. intros x. now apply IH.
    + apply field_schema_same. intros x. now apply IH.
  - rewrite !dead_included by assumption. cbn [negb]. now apply IH.
Qed.
Lemma tuple_fields_same c fs fs' : Forall2 field_sim fs fs' -> forall (k k' : list json -> prog), (forall x, same (k x) (k' x)) ->
  same (tuple_fields c fs k) (tuple_fields c fs' k').
Proof.
  induction 1 as [|f f' fs fs' HF HR IH]; intros k k' HK; cbn [tuple_fields]; [apply HK|].
  destruct HF as [<-|[D1 D2]].
  - destruct (included (f_skip_de f) (f_skip_ser f) c); [|now apply IH]. apply field_schema_same. intros x. apply IH. intros y. apply HK.
  - rewrite !dead_included by assumption. now apply IH.
Qed.
Lemma style_prog_same def deny c s s' (k k' : json -> prog) : style_sim s s' -> (forall x, same (k x) (k' x)) ->
  same (style_prog def deny c s k) (style_prog def deny c s' k').
Proof.
  intros HS HK. destruct HS as [|f|fs fs' HF|fs fs' HF]; cbn [style_prog].
  - apply same_sub. exact HK.
  - now apply field_schema_same.
  - apply tuple_fields_same; [exact HF|]. intros x. apply HK.
  - apply struct_fields_same; assumption.
Qed.

Lemma untagged_same deny c v v' a (k k' : json -> prog) : variant_sim v v' -> style_sim (v_style v) (v_style v') -> (forall x, same (k x) (k' x)) ->
  same (untagged_variant deny c v a k) (untagged_variant deny c v' a k').
Proof.
  intros (E1 & E2 & E3 & E4 & E5 & E6 & E7 & _) HS HK. unfold untagged_variant. apply style_prog_same; [exact HS|]. intros x. rewrite E6. apply HK.
Qed.
Lemma name_same c v v' : variant_sim v v' -> v_name c v = v_name c v'.
Proof. intros (E1 & E2 & _). unfold v_name, name_for. destruct c; assumption. Qed.
Lemma external_same deny c v v' (k k' : json -> prog) : variant_sim v v' -> style_sim (v_style v) (v_style v') -> (forall x, same (k x) (k' x)) ->
  same (external_variant deny c v k) (external_variant deny c v' k').
Proof.
  intros HV HS HK. pose proof HV as (E1 & E2 & E3 & E4 & E5 & E6 & E7 & _). unfold external_variant.
  rewrite <- E5, <- E7, <- (name_same c v v' HV), <- E6. destruct (v_untagged v); [now apply untagged_same|].
  destruct (v_is_unit v); [apply HK|]. apply untagged_same; [exact HV|exact HS|]. intros x. apply HK.
Qed.
Lemma adjacent_same deny c tag content v v' (k k' : json -> prog) : variant_sim v v' -> style_sim (v_style v) (v_style v') -> (forall x, same (k x) (k' x)) ->
  same (adjacent_variant deny c tag content v k) (adjacent_variant deny c tag content v' k').
Proof.
  intros HV HS HK. pose proof HV as (E1 & E2 & E3 & E4 & E5 & E6 & E7 & _). unfold adjacent_variant.
  rewrite <- E5, <- E7, <- (name_same c v v' HV), <- E6. destruct (v_untagged v); [now apply untagged_same|].
  destruct (v_is_unit v); [apply HK|]. apply untagged_same; [exact HV|exact HS|]. intros x. apply HK.
Qed.
Lemma internal_same deny c tag v v' (k k' : json -> prog) : variant_sim v v' -> style_sim (v_style v) (v_style v') -> (forall x, same (k x) (k' x)) ->
  same (internal_variant items deny c tag v k) (internal_variant items deny c tag v' k').
Proof.
  intros HV HS HK. pose proof HV as (E1 & E2 & E3 & E4 & E5 & E6 & E7 & _). unfold internal_variant.
  rewrite <- E5, <- (name_same c v v' HV), <- E6. destruct (v_untagged v); [now apply untagged_same|].
  destruct HS as [|f|fs fs' HF|fs fs' HF].
  - apply same_sub. intros x. apply HK.
  - destruct (f_required f).
    + apply field_schema_same. intros x. apply HK.
    + apply same_call. intros x. apply same_settings. intros st.
      destruct (for_internal_newtype (type_inline items (f_ty f)) (s_inline st) x) as [s' inlined]. destruct inlined; [apply HK|].
      apply same_sub. intros y. apply HK.
  - apply tuple_fields_same; [exact HF|]. intros x. apply HK.
  - apply struct_fields_same; [exact HF|]. intros x. apply HK.
Qed.

Lemma variants_same c (one one' : variant X -> (json -> prog) -> prog) vs vs' : Forall2 variant_sim vs vs' ->
  (forall v v' k k', variant_sim v v' -> style_sim (v_style v) (v_style v') -> (forall x, same (k x) (k' x)) -> same (one v k) (one' v' k')) ->
  forall (k k' : list json -> prog), (forall x, same (k x) (k' x)) -> same (variants c one vs k) (variants c one' vs' k').
Proof.
  intros HF HO. induction HF as [|v v' vs vs' HV HR IH]; intros k k' HK; cbn [variants]; [apply HK|].
  pose proof HV as (E1 & E2 & E3 & E4 & E5 & E6 & E7 & E8). rewrite <- E3, <- E4.
  destruct (included (v_skip_de v) (v_skip_ser v) c) eqn:EI; [|now apply IH].
  destruct E8 as [[D1 D2]|HS]; [exfalso; destruct c; cbn in EI; [rewrite D1 in EI|rewrite D2 in EI]; discriminate|].
  apply HO; [exact HV|exact HS|]. intros x. apply IH. intros y. apply HK.
Qed.

Lemma filter_sim (P : variant X -> bool) vs vs' : (forall v v', variant_sim v v' -> P v = P v') -> Forall2 variant_sim vs vs' ->
  Forall2 variant_sim (filter P vs) (filter P vs').
Proof.
  intros HP. induction 1 as [|v v' vs vs' HV HR IH]; cbn [filter]; [constructor|]. rewrite <- (HP v v' HV). destruct (P v); [constructor; assumption|exact IH].
Qed.
Lemma plain_unit_sim v v' : variant_sim v v' -> plain_unit v = plain_unit v'.
Proof. intros (E1 & E2 & E3 & E4 & E5 & E6 & E7 & _). unfold plain_unit. now rewrite E5, E6, E7. Qed.
Lemma unit_names_sim c vs vs' : Forall2 variant_sim vs vs' -> unit_names c vs = unit_names c vs'.
Proof.
  intros HF. unfold unit_names. do 5 f_equal. induction HF as [|v v' vs vs' HV HR IH]; [reflexivity|]. cbn [filter].
  pose proof HV as (E1 & E2 & E3 & E4 & _). rewrite <- E3, <- E4.
  destruct (included (v_skip_de v) (v_skip_ser v) c); [cbn [map]; now rewrite (name_same c v v' HV), IH|exact IH].
Qed.
Lemma variant_schemas_sim u vs vs' ss : Forall2 variant_sim vs vs' -> variant_schemas u vs ss = variant_schemas u vs' ss.
Proof.
  intros HF. unfold variant_schemas. assert (HE : existsb v_untagged vs = existsb v_untagged vs').
  { induction HF as [|v v' vs vs' HV HR IH]; [reflexivity|]. cbn [existsb]. pose proof HV as (_ & _ & _ & _ & E5 & _). now rewrite E5, IH. }
  now rewrite HE.
Qed.

Lemma enum_prog_same deny c t vs vs' (k k' : json -> prog) : Forall2 variant_sim vs vs' -> (forall x, same (k x) (k' x)) ->
  same (enum_prog items deny c t vs k) (enum_prog items deny c t vs' k').
Proof.
  intros HF HK. unfold enum_prog. destruct HF as [|v v' vs vs' HV HR]; [apply HK|].
  assert (HA : Forall2 variant_sim (v :: vs) (v' :: vs')) by (constructor; assumption).
  destruct t as [| |tag|tag content].
  - cbv zeta. pose proof (filter_sim (fun v => negb (plain_unit v)) _ _ (fun x y H => f_equal negb (plain_unit_sim x y H)) HA) as HC.
    pose proof (filter_sim plain_unit _ _ plain_unit_sim HA) as HU.
    destruct HC as [|w w' ws ws' HW HWS].
    + rewrite (unit_names_sim c _ _ HU). apply HK.
    + apply variants_same; [constructor; assumption|intros; now apply external_same|]. intros x.
      rewrite (variant_schemas_sim true (w :: ws) (w' :: ws')) by (constructor; assumption).
      rewrite (unit_names_sim c _ _ HU). destruct HU; apply HK.
  - apply variants_same; [exact HA|intros; now apply untagged_same|]. intros x. rewrite (variant_schemas_sim false _ _ x HA). apply HK.
  - apply variants_same; [exact HA|intros; now apply internal_same|]. intros x. rewrite (variant_schemas_sim true _ _ x HA). apply HK.
  - apply variants_same; [exact HA|intros; now apply adjacent_same|]. intros x. rewrite (variant_schemas_sim true _ _ x HA). apply HK.
Qed.

Fixpoint data_sim (d d' : data X) : Prop :=
  match d, d' with
  | DConv f i o, DConv f' i' o' => f = f' /\ i = i' /\ data_sim o o'
  | DStruct a s, DStruct b s' => a = b /\ style_sim s s'
  | DEnum t vs, DEnum t' vs' => t = t' /\ Forall2 variant_sim vs vs'
  | _, _ => False
  end.
Lemma decl_prog_same c (d d' : decl X) : d_deny d = d_deny d' -> d_meta d = d_meta d' -> data_sim (d_data d) (d_data d') ->
  same (decl_prog items c d) (decl_prog items c d').
Proof.
  intros E1 E2 HD. unfold decl_prog. rewrite <- E1, <- E2. generalize dependent (d_data d'). generalize (d_deny d). clear E1 E2.
  induction (d_data d) as [a s|t vs|zs|f i o IH]; intros deny [b s'|t' vs'|zs'|f' i' o'] HD; cbn [data_sim] in HD; try contradiction; cbn [data_prog].
  - destruct HD as [<- HS]. apply style_prog_same; [exact HS|]. intros x. apply same_refl.
  - destruct HD as [<- HS]. apply enum_prog_same; [exact HS|]. intros x. apply same_refl.
  - destruct HD as (<- & <- & HO). destruct (converted c f i); [apply same_refl|]. now apply IH.
Qed.
End Sim.

(** Induction on types *)
Lemma sty_rect_list (P : sty -> Prop)
  (HP : forall q l i t a, (forall x, In x q -> P x) -> (forall x, In x a -> P x) -> P (SPath q l i t a))
  (HC : forall t e, (forall x, In x e -> P x) -> P (SCompound t e))
  (HM : forall t, P (SMacro t)) (HO : forall t, P (SOther t)) : forall t, P t.
Proof.
  fix go 1. intros [q l i t a|t e|t|t]; [apply HP|apply HC|apply HM|apply HO].
  - induction q as [|y q IH]; intros x HX; [destruct HX|destruct HX as [HX|HX]; [rewrite <- HX; apply go|now apply IH]].
  - induction a as [|y a IH]; intros x HX; [destruct HX|destruct HX as [HX|HX]; [rewrite <- HX; apply go|now apply IH]].
  - induction e as [|y e IH]; intros x HX; [destruct HX|destruct HX as [HX|HX]; [rewrite <- HX; apply go|now apply IH]].
Qed.

Section Instances.
Context {X : Type}.
Variable path_meaning : list rty -> option rty -> list string -> string -> list rty -> rty.
Variable compound_meaning : string -> list rty -> rty.
Variable macro_meaning : string -> (string -> rty) -> rty.
Variable other_meaning : string -> rty.
Variable all : list string.
Hypothesis HPH : forall q p p' idents text args args', last idents "" = "PhantomData" ->
  path_meaning q p idents text args = path_meaning q p' idents text args'.
Hypothesis HMAC : forall tokens i i', macro_meaning tokens i = macro_meaning tokens i'.
Hypothesis HNP : ~ In "PhantomData" all.
Notation resolve := (resolve path_meaning compound_meaning macro_meaning other_meaning all).
Notation source_type := (source_type path_meaning compound_meaning macro_meaning other_meaning all).

Lemma first_param_In lead idents p : first_param all lead idents = Some p -> In p all.
Proof.
  unfold first_param. destruct lead; [discriminate|]. destruct idents as [|i r]; [discriminate|]. destruct (smem i all) eqn:E; [|discriminate].
  intros HE. injection HE as <-. apply existsb_exists in E as (x & Hx & HE). apply String.eqb_eq in HE. now subst.
Qed.
Lemma resolve_same t (i i' : string -> rty) : (forall p, In p (visit_type all t) -> i p = i' p) -> resolve i t = resolve i' t.
Proof.
  induction t as [q l ids tx a IHq IHa|tx e IHe|tx|tx] using sty_rect_list; intros H; cbn [GenericParams.resolve visit_type] in *; [|f_equal; apply map_ext_in; intros x Hx; apply IHe; [exact Hx|]; intros p Hp; apply H; apply in_flat_map; now exists x|apply HMAC|reflexivity].
  assert (HQ : map (resolve i) q = map (resolve i') q).
  { apply map_ext_in. intros x Hx. apply IHq; [exact Hx|]. intros p Hp. apply H. apply in_or_app. left. apply in_flat_map. now exists x. }
  destruct (is_phantom ids) eqn:EP.
  - unfold is_phantom in EP. apply String.eqb_eq in EP.
    assert (HX : path_meaning (map (resolve i) q) (option_map i (first_param all l ids)) ids tx (map (resolve i) a)
               = path_meaning (map (resolve i') q) (option_map i' (first_param all l ids)) ids tx (map (resolve i') a)).
    { rewrite HQ. now apply HPH. }
    destruct (first_param all l ids) as [p|] eqn:EF; [|exact HX]. destruct ids as [|d [|d2 ids]]; [exact HX| |exact HX]. destruct q; [|exact HX].
    exfalso. cbn in EP. subst d. apply HNP. pose proof (first_param_In _ _ _ EF) as HI. unfold first_param in EF. destruct l; [discriminate|].
    destruct (smem "PhantomData" all); [injection EF as <-; exact HI|discriminate].
  - assert (HA : map (resolve i) a = map (resolve i') a).
    { apply map_ext_in. intros x Hx. apply IHa; [exact Hx|]. intros p Hp. apply H. apply in_or_app. right. apply in_or_app. right. apply in_flat_map. now exists x. }
    assert (HP : forall p, first_param all l ids = Some p -> i p = i' p).
    { intros p EF. apply H. rewrite EF. apply in_or_app. right. now left. }
    rewrite HQ, HA. destruct (first_param all l ids) as [p|]; [|reflexivity]. cbn [option_map]. now rewrite (HP p eq_refl).
Qed.

Lemma visit_all t p : In p (visit_type all t) -> In p all.
Proof.
  induction t as [q l ids tx a IHq IHa|tx e IHe|tx|tx] using sty_rect_list; cbn [visit_type]; intros H; try contradiction.
  - apply in_app_or in H as [H|H]; [apply in_flat_map in H as (x & Hx & HP); now apply (IHq x)|]. destruct (is_phantom ids); [destruct H|].
    apply in_app_or in H as [H|H]; [destruct (first_param all l ids) as [p'|] eqn:E; [destruct H as [<-|[]]; now apply first_param_In in E|destruct H]|].
    apply in_flat_map in H as (x & Hx & HP). now apply (IHa x).
  - apply in_flat_map in H as (x & Hx & HP). now apply (IHe x).
Qed.

(** What the theorem needs of the declaration *)
Definition own_source (s : source) : Prop :=
  match s with WithFunction f => forall i i', f i = f i' | _ => True end.
Definition live (f : gfield X) : Prop := f_skip_de (gf_attrs f) && f_skip_ser (gf_attrs f) = false.
Definition style_ok (s : gstyle X) : Prop :=
  (forall f, In f (style_fields s) -> own_source (gf_source f)) /\ match s with GNewtype f => live f | _ => True end.
Fixpoint data_ok (d : gdata X) : Prop :=
  match d with
  | GDConv f i o => (forall t, f = Some t \/ i = Some t -> incl (visit_type all t) (visit_data all o)) /\ data_ok o
  | GDStruct _ s => style_ok s
  | GDEnum _ vs => forall v, In v vs -> style_ok (gv_style v) /\ forall s, gv_with v = Some s -> forall i i', source_type i s = source_type i' s
  end.

Lemma source_same s i i' : own_source s -> (forall p, In p (visit_field all s) -> i p = i' p) -> source_type i s = source_type i' s.
Proof. destruct s; cbn [visit_field own_source]; intros HO H; [now apply resolve_same..|apply HO]. Qed.

Notation inst_field := (GenericParams.inst_field (X:=X) path_meaning compound_meaning macro_meaning other_meaning all).
Notation inst_style := (GenericParams.inst_style (X:=X) path_meaning compound_meaning macro_meaning other_meaning all).
Notation inst_variant := (GenericParams.inst_variant (X:=X) path_meaning compound_meaning macro_meaning other_meaning all).
Notation inst_data := (GenericParams.inst_data (X:=X) path_meaning compound_meaning macro_meaning other_meaning all).

Lemma fields_same fs i i' : (forall f, In f fs -> own_source (gf_source f)) ->
  (forall p, In p (flat_map (fun f => visit_field all (gf_source f)) (filter field_needs_bound fs)) -> i p = i' p) ->
  Forall2 field_sim (map (inst_field i) fs) (map (inst_field i') fs).
Proof.
  induction fs as [|f fs IH]; intros HO H; cbn [map]; [constructor|]. cbn [filter] in H. constructor.
  - destruct (field_needs_bound f) eqn:E.
    + left. unfold GenericParams.inst_field. f_equal. apply source_same; [apply HO; now left|]. intros p Hp. apply H. cbn [flat_map]. apply in_or_app. now left.
    + right. unfold field_needs_bound in E. apply negb_false_iff, andb_true_iff in E as [E1 E2]. unfold dead. cbn. auto.
  - apply IH; [intros g Hg; apply HO; now right|]. intros p Hp. apply H. destruct (field_needs_bound f); [cbn [flat_map]; apply in_or_app; now right|exact Hp].
Qed.
Lemma style_same s i i' : style_ok s ->
  (forall p, In p (flat_map (fun f => visit_field all (gf_source f)) (filter field_needs_bound (style_fields s))) -> i p = i' p) ->
  style_sim (inst_style i s) (inst_style i' s).
Proof.
  intros [HO HN] H. destruct s as [|f|fs|fs]; cbn [GenericParams.inst_style style_fields] in *.
  - constructor.
  - pose proof (fields_same [f] i i' HO H) as HF. cbn [map] in HF. inversion HF as [|? ? ? ? HF1 _]; subst. destruct HF1 as [HF1|[D _]].
    + rewrite HF1. constructor.
    + exfalso. destruct D as [D1 D2]. cbn in D1, D2. unfold live in HN. rewrite D1, D2 in HN. discriminate.
  - constructor. now apply fields_same.
  - constructor. now apply fields_same.
Qed.

Lemma data_same d i i' : data_ok d -> (forall p, In p (visit_data all d) -> i p = i' p) -> data_sim (inst_data i d) (inst_data i' d).
Proof.
  induction d as [def s|t vs|f j o IHo]; cbn [data_ok GenericParams.inst_data data_sim]; intros HO H.
  - split; [reflexivity|]. now apply style_same.
  - split; [reflexivity|]. unfold visit_data in H. cbn [visited_fields] in H. induction vs as [|v vs IH]; cbn [map]; [constructor|]. cbn [flat_map] in H. constructor.
    + destruct (HO v (or_introl eq_refl)) as [HS HW]. unfold variant_sim, GenericParams.inst_variant. cbn.
      assert (HU : v_is_unit (inst_variant i v) = v_is_unit (inst_variant i' v)).
      { unfold v_is_unit. cbn. destruct (gv_with v); [reflexivity|]. destruct (gv_style v); reflexivity. }
      repeat (split; [reflexivity|]). split; [exact HU|].
      destruct (variant_needs_bound v) eqn:EB.
      * right. destruct (gv_with v) as [s|] eqn:EW.
        -- rewrite (HW s eq_refl i i'). constructor.
        -- apply style_same; [exact HS|]. intros p Hp. apply H. rewrite flat_map_app. apply in_or_app. now left.
      * left. unfold variant_needs_bound in EB. apply negb_false_iff, andb_true_iff in EB as [E1 E2]. split; assumption.
    + apply IH; [intros w Hw; apply HO; now right|]. intros p Hp. apply H. rewrite flat_map_app. apply in_or_app. now right.
  - destruct HO as [HT HO]. change (visit_data all (GDConv f j o)) with (visit_data all o) in H.
    assert (HR : forall g : option sty, (forall t, g = Some t -> f = Some t \/ j = Some t) -> option_map (resolve i) g = option_map (resolve i') g).
    { intros [t|] Hg; [|reflexivity]. cbn [option_map]. f_equal. apply resolve_same. intros p Hp. apply H. exact (HT t (Hg t eq_refl) p Hp). }
    split; [apply HR; auto|]. split; [apply HR; auto|]. now apply IHo.
Qed.

Lemma visit_data_all (d : gdata X) p : In p (visit_data all d) -> In p all.
Proof.
  unfold visit_data. intros H. apply in_flat_map in H as (f & _ & HP).
  destruct (gf_source f); cbn [visit_field] in HP; [now apply visit_all in HP..|destruct HP].
Qed.
End Instances.
