(** Types that are written as they are read: the two contracts lead to one document. *)
From Coq Require Import String List ZArith Bool.
From Verif Require Import Json JsonFacts SchemaApi Pointer Private Generate GenerateSpec GenerateRun Types Derivation Sound Settings.
Import ListNotations.
Open Scope string_scope.
Open Scope list_scope.

(** ** Specification *)
Section Spec.
Context {X : Type}.
Variable items : nat -> item X.

(** A named field is skipped in both directions or in none. If it is not, it has one name, and it may
    be left out when writing (a [skip_serializing_if] predicate) just when it may be missing when
    reading (a default, or an Option not marked as required). [def]: the struct has a default. *)
Definition field_both_ways (def : bool) (f : field X) : Prop :=
  f_skip_ser f = f_skip_de f
  /\ (f_skip_ser f = false -> f_flatten f = false ->
      f_ser f = f_de f
      /\ (f_skip_if f <> None <-> def = true \/ f_default f = true \/ (is_option (f_ty f) = true /\ f_required f = false))).
Definition style_both_ways (def : bool) (s : style X) : Prop :=
  match s with
  | Unit | Newtype _ => True
  | Tuple fs => forall f, In f fs -> f_skip_ser f = f_skip_de f
  | Struct fs => forall f, In f fs -> field_both_ways def f
  end.
Definition variant_both_ways (v : variant X) : Prop :=
  v_skip_ser v = v_skip_de v /\ (v_skip_ser v = false -> v_ser v = v_de v /\ style_both_ways false (v_style v)).
(** A conversion is made in both directions, with one type, or in none. *)
Fixpoint data_both_ways (d : data X) : Prop :=
  match d with
  | DStruct def s => style_both_ways def s
  | DEnum _ vs => forall v, In v vs -> variant_both_ways v
  | DRepr _ => True
  | DConv from into own => from = into /\ (from = None -> data_both_ways own)
  end.
(** CString, Bytes and Decimal are read from more than they are written to. *)
Fixpoint both_ways (t : rty) : Prop :=
  match t with
  | TText Decimal | TCString | TBytes => False
  | TFwd t | TWeak t => both_ways t
  | TAdt n cs ts => data_both_ways (d_data (it_decl (items n) cs ts))
  | _ => True
  end.
End Spec.

(** ** Proofs *)
(** Generators that differ in their contract *)
Definition flip (u : uid) : uid := (fst u, match snd u with Serialize => Deserialize | Deserialize => Serialize end).
Lemma flip_eqb u w : uid_eqb (flip u) (flip w) = uid_eqb u w.
Proof. destruct u as [a []], w as [b []]; reflexivity. Qed.
Lemma flip_mem u l : umem (flip u) (map flip l) = umem u l.
Proof. unfold umem. induction l as [|w l IH]; cbn [map existsb]; [reflexivity|]. now rewrite flip_eqb, IH. Qed.
Definition flip_name (p : uid * string) : uid * string := (flip (fst p), snd p).
Lemma flip_get u l : uget (flip u) (map flip_name l) = uget u l.
Proof. induction l as [|[w n] l IH]; cbn [map uget flip_name fst snd]; [reflexivity|]. now rewrite flip_eqb, IH. Qed.

Section Sim.
Context {Ty S1 : Type}.

Definition opposed (a b : settings S1) : Prop :=
  s_path a = s_path b /\ s_inline a = s_inline b /\ s_contract a = Serialize /\ s_contract b = Deserialize.

Inductive mirror : prog Ty S1 -> prog Ty S1 -> Prop :=
| MiRet s : mirror (Ret s) (Ret s)
| MiSub t k k' : (forall s, mirror (k s) (k' s)) -> mirror (Sub t k) (Sub t k')
| MiCall t k k' : (forall s, mirror (k s) (k' s)) -> mirror (Call t k) (Call t k')
| MiSettings k k' : (forall a b, opposed a b -> mirror (k a) (k' b)) -> mirror (ReadSettings k) (ReadSettings k')
| MiDefs k k' : (forall d, mirror (k d) (k' d)) -> mirror (ReadDefs k) (ReadDefs k').

Variables (sa sb : settings S1) (x0 : S1).
Hypothesis HA : opposed sa sb.
Record sim (g h : gen Ty S1) : Prop := {
  si_set : g_set g = sa /\ g_set h = sb;
  si_tst : g_tst g = x0 /\ g_tst h = x0;
  si_defs : g_defs g = g_defs h;
  si_pending : g_pending h = map flip (g_pending g);
  si_names : g_names h = map flip_name (g_names g);
  si_used : g_used g = g_used h;
  si_roots : g_roots h = map flip (g_roots g) }.

Definition sim_res {A} (a b : option (A * gen Ty S1)) : Prop :=
  match a, b with
  | Some (x, g), Some (y, h) => x = y /\ sim g h
  | None, None => True
  | _, _ => False
  end.

Ltac si := match goal with H : sim _ _ |- _ => destruct H end.
Lemma sim_with_defs g h d : sim g h -> sim (with_defs d g) (with_defs d h).
Proof. intros; si; constructor; auto. Qed.
Lemma sim_with_pending g h d d' : d' = map flip d -> sim g h -> sim (with_pending d g) (with_pending d' h).
Proof. intros ->; intros; si; constructor; auto. Qed.
Lemma sim_with_roots g h d d' : d' = map flip d -> sim g h -> sim (with_roots d g) (with_roots d' h).
Proof. intros ->; intros; si; constructor; auto. Qed.
Lemma sim_with_name g h u n : sim g h -> sim (with_name u n g) (with_name (flip u) n h).
Proof. intros; si; constructor; cbn; try congruence. now rewrite si_names0. Qed.
Lemma sim_emit g h e e' : sim g h -> sim (emit e g) (emit e' h).
Proof. intros; si; constructor; cbn; auto. Qed.

Variable info : Ty -> tyinfo Ty S1.
Variable R : Ty -> Prop.
Hypothesis HC : closed info R.
Hypothesis HB : forall t, R t -> mirror (t_body (info t)) (t_body (info t)).

Lemma sim_uid g h t : sim g h -> uid_of info h t = flip (uid_of info g t).
Proof. intros; si. destruct si_set0 as [H1 H2]. destruct HA as (_ & _ & H3 & H4). unfold uid_of, flip. now rewrite H1, H2, H3, H4. Qed.

Lemma filter_flip u l : filter (fun v => negb (uid_eqb (flip u) v)) (map flip l) = map flip (filter (fun v => negb (uid_eqb u v)) l).
Proof. induction l as [|w l IH]; cbn [map filter]; [reflexivity|]. rewrite flip_eqb, IH. now destruct (uid_eqb u w). Qed.

Lemma sim_find_ref g h t : sim g h ->
  match find_ref info t g, find_ref info t h with
  | Some (r, i, g1), Some (r', i', h1) => r = r' /\ i = i' /\ sim g1 h1
  | None, None => True
  | _, _ => False
  end.
Proof.
  intros H. pose proof (sim_uid g h t H) as EU. pose proof H as [[S1' S2'] _ E1 E2 E3 E4 E5]. destruct HA as (P1 & P2 & P3).
  unfold find_ref. rewrite S1', S2'. rewrite EU, <- P1, <- P2, E2, E3, <- E4, E5, flip_mem, flip_get.
  destruct (negb _); [exact I|].
  assert (ER : match map flip (g_roots g) with [] => false | r :: _ => uid_eqb r (flip (uid_of info g t)) end
             = match g_roots g with [] => false | r :: _ => uid_eqb r (uid_of info g t) end)
    by (destruct (g_roots g); cbn [map]; [reflexivity|apply flip_eqb]).
  rewrite ER. clear ER. destruct (match g_roots g with [] => false | _ => _ end); [auto|].
  destruct (uget (uid_of info g t) (g_names g)) as [n|].
  - cbn [g_defs with_name]. rewrite E1. auto.
  - cbn [g_defs with_name]. rewrite E1. split; [reflexivity|]. split; [reflexivity|]. now apply sim_with_name.
Qed.

Section Js.
Variable js : Ty -> gen Ty S1 -> option (json * gen Ty S1).
Hypothesis HJ : forall t g h, R t -> sim g h -> sim_res (js t g) (js t h).

Lemma sim_internal t u g h : R t -> sim g h -> sim_res (json_schema_internal js t u g) (json_schema_internal js t (flip u) h).
Proof.
  intros HR H. unfold json_schema_internal. rewrite (si_pending _ _ H), flip_mem.
  assert (H1 : sim (if negb (umem u (g_pending g)) then with_pending (u :: g_pending g) g else g)
                   (if negb (umem u (g_pending g)) then with_pending (flip u :: map flip (g_pending g)) h else h))
    by (destruct (negb _); [now apply sim_with_pending|exact H]).
  specialize (HJ t _ _ HR H1). unfold sim_res in *. destruct (js t _) as [[s g2]|] in *; destruct (js t _) as [[s' h2]|] in *; try contradiction; [|exact I].
  destruct HJ as [-> HS]. split; [reflexivity|]. destruct (negb _); [|exact HS]. rewrite (si_pending _ _ HS).
  apply sim_with_pending; [apply filter_flip|exact HS].
Qed.

Lemma sim_sub t g h : R t -> sim g h -> sim_res (subschema_for info js t g) (subschema_for info js t h).
Proof.
  intros HR H. unfold subschema_for. pose proof (sim_find_ref g h t H) as HF. rewrite (sim_uid g h t H).
  destruct (find_ref info t g) as [[[r i] g1]|], (find_ref info t h) as [[[r' i'] h1]|]; try contradiction; [|now apply sim_internal].
  destruct HF as (<- & <- & HF). apply (sim_emit _ _ (EvRef (g_roots g) t r) (EvRef (g_roots h) t r)) in HF.
  destruct i as [name|]; [|split; [reflexivity|exact HF]]. unfold insert_new_subschema_for. rewrite <- (si_defs _ _ HF).
  match goal with |- context[json_schema_internal js ?t ?u ?a] => match goal with |- context[json_schema_internal js t (flip u) ?b] =>
    assert (HX : sim_res (json_schema_internal js t u a) (json_schema_internal js t (flip u) b)) by (apply sim_internal; [exact HR|]; apply sim_with_defs, HF) end end.
  unfold sim_res in *.
  destruct (json_schema_internal js t (uid_of info g t) _) as [[s g2]|], (json_schema_internal js t (flip _) _) as [[s' h2]|]; try contradiction; [|exact I].
  destruct HX as [-> HX]. split; [reflexivity|]. rewrite (si_defs _ _ HX). apply sim_emit. now apply sim_with_defs.
Qed.

Lemma sim_run p q : mirror p q -> within R p -> forall g h, sim g h -> sim_res (run_prog info js p g) (run_prog info js q h).
Proof.
  induction 1 as [s|t k k' _ IH|t k k' _ IH|k k' _ IH|k k' _ IH]; intros HW g h H; cbn [run_prog]; cbn [within] in HW.
  - split; [reflexivity|exact H].
  - destruct HW as [HR HW]. pose proof (sim_sub t g h HR H) as HS. unfold sim_res in HS.
    destruct (subschema_for info js t g) as [[s g1]|], (subschema_for info js t h) as [[s' h1]|]; try contradiction; [|exact I].
    destruct HS as [<- HS]. apply IH; auto.
  - destruct HW as [HR HW]. pose proof (HJ t g h HR H) as HS. unfold sim_res in HS.
    destruct (js t g) as [[s g1]|], (js t h) as [[s' h1]|]; try contradiction; [|exact I].
    destruct HS as [<- HS]. apply IH; auto.
  - destruct (si_set _ _ H) as [-> ->]. apply IH; auto.
  - rewrite <- (si_defs _ _ H). apply IH; auto.
Qed.
End Js.

Lemma sim_json_schema n : forall t g h, R t -> sim g h -> sim_res (json_schema info n t g) (json_schema info n t h).
Proof.
  induction n as [|n IH]; intros t g h HR H; cbn [json_schema]; [exact I|].
  pose proof (sim_run _ IH _ _ (HB t HR) (HC t HR) _ _ (sim_emit _ _ (EvRun t) (EvRun t) H)) as HS. unfold sim_res in *.
  destruct (run_prog info _ _ (emit _ g)) as [[s g1]|], (run_prog info _ _ (emit _ h)) as [[s' h1]|]; try contradiction; [|exact I].
  destruct HS as [<- HS]. split; [reflexivity|]. now apply sim_emit.
Qed.

Lemma sim_root n t g h : s_meta sa = s_meta sb -> s_transforms sa = s_transforms sb -> R t -> sim g h ->
  option_map fst (root_schema_for info (json_schema info n) t g) = option_map fst (root_schema_for info (json_schema info n) t h).
Proof.
  intros HM HT HR H. unfold root_schema_for. rewrite (sim_uid g h t H).
  assert (HS : sim_res
     (json_schema_internal (json_schema info n) t (uid_of info g t) (with_roots (uid_of info g t :: g_roots g) g))
     (json_schema_internal (json_schema info n) t (flip (uid_of info g t)) (with_roots (flip (uid_of info g t) :: g_roots h) h))).
  { apply sim_internal; [apply sim_json_schema|exact HR|]. apply sim_with_roots; [|exact H]. now rewrite (si_roots _ _ H). }
  unfold sim_res in HS.
  destruct (json_schema_internal _ _ _ (with_roots _ g)) as [[s g1]|], (json_schema_internal _ _ _ (with_roots _ h)) as [[s' h1]|]; try contradiction; [|reflexivity].
  destruct HS as [<- HS]. destruct (si_set _ _ HS) as [E1 E2]. destruct (si_tst _ _ HS) as [E3 E4].
  unfold apply_transforms. rewrite E1, E2, <- HT, E3, E4, (si_defs _ _ HS).
  assert (ER : root_object info t sa s = root_object info t sb s) by (unfold root_object; now rewrite HM).
  destruct HA as (P1 & _). rewrite ER, P1.
  destruct (fold_left _ (s_transforms sa) _) as [d x] eqn:EF. reflexivity.
Qed.
End Sim.

(** ** The implementations of schemars *)
Section Bodies.
Context {X S1 : Type}.
Variable items : nat -> item X.
Notation P := (prog rty S1).
Notation mi := (@mirror rty S1).

Lemma mi_field (f : field X) (k k' : json -> P) : (forall s, mi (k s) (k' s)) -> mi (field_schema f k) (field_schema f k').
Proof. intros H. unfold field_schema. destruct (f_required f); constructor; auto. Qed.
Lemma mi_subs ts : forall (k k' : list json -> P), (forall s, mi (k s) (k' s)) -> mi (subs ts k) (subs ts k').
Proof. induction ts as [|t ts IH]; intros k k' H; cbn [subs]; [apply H|]. constructor. intros s. apply IH. auto. Qed.
Lemma included_both a c : included a a c = negb a.
Proof. now destruct c. Qed.
Lemma mi_tuple (fs : list (field X)) : (forall f, In f fs -> f_skip_ser f = f_skip_de f) ->
  forall (k k' : list json -> P), (forall s, mi (k s) (k' s)) -> mi (tuple_fields Serialize fs k) (tuple_fields Deserialize fs k').
Proof.
  induction fs as [|f fs IH]; intros HF k k' H; cbn [tuple_fields]; [apply H|].
  rewrite (HF f (or_introl eq_refl)), !included_both. assert (HF' : forall g, In g fs -> f_skip_ser g = f_skip_de g) by (intros g Hg; apply HF; now right).
  destruct (negb _); [|now apply IH]. apply mi_field. intros s. now apply IH.
Qed.
Lemma optional_both def (f : field X) :
  (f_skip_if f <> None <-> def = true \/ f_default f = true \/ (is_option (f_ty f) = true /\ f_required f = false)) ->
  is_optional def Serialize f = is_optional def Deserialize f.
Proof.
  unfold is_optional. destruct (f_skip_if f), def, (f_default f), (is_option (f_ty f)), (f_required f); cbn; intros [H1 H2]; try reflexivity; exfalso;
    solve [apply H2; auto | assert (HN : Some b <> None) by discriminate; destruct (H1 HN) as [|[|[]]]; discriminate].
Qed.
Lemma mi_struct def (fs : list (field X)) : (forall f, In f fs -> field_both_ways def f) ->
  forall s (k k' : json -> P), (forall s, mi (k s) (k' s)) -> mi (struct_fields def Serialize fs s k) (struct_fields def Deserialize fs s k').
Proof.
  induction fs as [|f fs IH]; intros HF s k k' H; cbn [struct_fields]; [apply H|].
  destruct (HF f (or_introl eq_refl)) as [E1 E2]. rewrite E1, !included_both, negb_involutive in *.
  assert (HF' : forall g, In g fs -> field_both_ways def g) by (intros g Hg; apply HF; now right).
  destruct (f_skip_de f) eqn:ES; [now apply IH|]. destruct (f_flatten f).
  - constructor. intros s'. now apply IH.
  - destruct (E2 eq_refl eq_refl) as [EN EO]. unfold name_for. rewrite EN, (optional_both def f EO). apply mi_field. intros s'. now apply IH.
Qed.
Lemma mi_style def deny (s : style X) (k k' : json -> P) : style_both_ways def s -> (forall s, mi (k s) (k' s)) ->
  mi (style_prog def deny Serialize s k) (style_prog def deny Deserialize s k').
Proof.
  intros HB H. destruct s as [|f|fs|fs]; cbn [style_prog style_both_ways] in *.
  - unfold unit_prog. now constructor.
  - now apply mi_field.
  - now apply mi_tuple.
  - unfold struct_prog. now apply mi_struct.
Qed.
Lemma mi_untagged deny (v : variant X) b (k k' : json -> P) : style_both_ways false (v_style v) -> (forall s, mi (k s) (k' s)) ->
  mi (untagged_variant deny Serialize v b k) (untagged_variant deny Deserialize v b k').
Proof. intros HB H. unfold untagged_variant. now apply mi_style. Qed.
Definition one_both (one : contract -> variant X -> (json -> P) -> P) : Prop :=
  forall v k k', v_ser v = v_de v -> style_both_ways false (v_style v) -> (forall s, mi (k s) (k' s)) -> mi (one Serialize v k) (one Deserialize v k').
Lemma name_both (v : variant X) : v_ser v = v_de v -> v_name Serialize v = v_name Deserialize v.
Proof. intros H. unfold v_name, name_for. exact H. Qed.
Lemma mi_external deny : one_both (external_variant deny).
Proof.
  intros v k k' HN HB H. unfold external_variant. rewrite (name_both v HN). destruct (v_untagged v); [now apply mi_untagged|].
  destruct (v_is_unit v); [apply H|]. now apply mi_untagged.
Qed.
Lemma mi_adjacent deny a b : one_both (fun c => adjacent_variant deny c a b).
Proof.
  intros v k k' HN HB H. unfold adjacent_variant. rewrite (name_both v HN). destruct (v_untagged v); [now apply mi_untagged|].
  destruct (v_is_unit v); [apply H|]. now apply mi_untagged.
Qed.
Lemma mi_internal deny tag : one_both (fun c => internal_variant items deny c tag).
Proof.
  intros v k k' HN HB H. unfold internal_variant. rewrite (name_both v HN). destruct (v_untagged v); [now apply mi_untagged|].
  destruct (v_style v) as [|f|fs|fs]; cbn [style_both_ways] in HB.
  - unfold unit_prog. now constructor.
  - destruct (f_required f); [now apply mi_field|]. constructor. intros s. constructor. intros a b HA.
    destruct HA as (_ & HA & _). rewrite HA. destruct (for_internal_newtype _ _ s) as [s' []]; [apply H|]. now constructor.
  - now apply mi_tuple.
  - unfold struct_prog. now apply mi_struct.
Qed.
Lemma mi_variants one : one_both one -> forall vs (k k' : list json -> P), (forall v, In v vs -> variant_both_ways v) ->
  (forall s, mi (k s) (k' s)) -> mi (variants Serialize (one Serialize) vs k) (variants Deserialize (one Deserialize) vs k').
Proof.
  intros HO. induction vs as [|v vs IH]; intros k k' HV H; cbn [variants]; [apply H|].
  destruct (HV v (or_introl eq_refl)) as [E1 E2]. rewrite E1, !included_both in *.
  assert (HV' : forall w, In w vs -> variant_both_ways w) by (intros w Hw; apply HV; now right).
  destruct (v_skip_de v); cbn [negb]; [now apply IH|]. destruct (E2 eq_refl) as [EN EB]. apply HO; auto.
Qed.
Lemma units_both (vs : list (variant X)) : (forall v, In v vs -> variant_both_ways v) -> unit_names Serialize vs = unit_names Deserialize vs.
Proof.
  intros HV. unfold unit_names. do 5 f_equal. induction vs as [|v vs IH]; cbn [filter map]; [reflexivity|].
  destruct (HV v (or_introl eq_refl)) as [E1 E2]. rewrite E1, !included_both in *.
  assert (HV' : forall w, In w vs -> variant_both_ways w) by (intros w Hw; apply HV; now right).
  destruct (v_skip_de v); cbn [negb map]; [now apply IH|]. destruct (E2 eq_refl) as [EN _]. rewrite (name_both v EN). f_equal. now apply IH.
Qed.
Lemma mi_enum deny tg (vs : list (variant X)) (k k' : json -> P) : (forall v, In v vs -> variant_both_ways v) -> (forall s, mi (k s) (k' s)) ->
  mi (enum_prog items deny Serialize tg vs k) (enum_prog items deny Deserialize tg vs k').
Proof.
  intros HV H. unfold enum_prog. destruct vs as [|v0 vs0] eqn:EV; [apply H|]. rewrite <- EV in *. clear EV v0 vs0.
  assert (HF : forall p v, In v (filter p vs) -> variant_both_ways v) by (intros p v Hv; apply filter_In in Hv as [Hv _]; auto).
  destruct tg as [| |tag|tag content].
  - rewrite (units_both (filter plain_unit vs)) by apply HF.
    pose proof (HF (fun v => negb (plain_unit v))) as HF2.
    set (cpx := filter (fun v => negb (plain_unit v)) vs) in *. destruct cpx as [|c0 cpx0] eqn:EC; [apply H|]. rewrite <- EC in *.
    apply (mi_variants (fun c => external_variant deny c)); auto. apply mi_external.
  - apply (mi_variants (fun c v => untagged_variant deny c v true)); auto. intros v q q' _ HB HQ. now apply mi_untagged.
  - apply (mi_variants (fun c => internal_variant items deny c tag)); auto. apply mi_internal.
  - apply (mi_variants (fun c => adjacent_variant deny c tag content)); auto. apply mi_adjacent.
Qed.

Lemma mi_body t : both_ways items t -> mi (body items t) (body items t).
Proof.
  induction t; cbn [body both_ways]; intros HB; auto; try contradiction; try (repeat (constructor; intros); fail).
  - constructor. intros a b (_ & _ & HA & HA'). rewrite HA, HA'. destruct k; try contradiction; constructor.
  - destruct n; repeat (constructor; intros).
  - apply mi_subs. intros; constructor.
  - constructor. intros ks. constructor. intros vs. constructor. intros a b (HA & _). rewrite HA. repeat (constructor; intros).
  - constructor. intros a b (_ & _ & HA & HA'). rewrite HA, HA'. unfold decl_prog. induction (d_data _) as [def s|tg vs|zs|f i o IH]; cbn [data_prog data_both_ways] in *.
    + apply mi_style; auto. intros; constructor.
    + apply mi_enum; auto. intros; constructor.
    + constructor.
    + destruct HB as [-> HB]. unfold converted. destruct i as [w|]; [constructor; intros; constructor|auto].
Qed.
End Bodies.

(** ** Documents *)
Lemma same_document {X St} (items : nat -> item X) (s : settings St) st n t :
  (forall u, reach items t u -> both_ways items u) ->
  option_map fst (root_schema_for (info items) (json_schema (info items) n) t (new_gen (for_serialize s) st))
  = option_map fst (root_schema_for (info items) (json_schema (info items) n) t (new_gen (for_deserialize s) st)).
Proof.
  intros HB. apply (sim_root (for_serialize s) (for_deserialize s) st) with (R := reach items t); auto.
  - repeat split.
  - apply reach_closed.
  - intros u HU. cbn [info t_body]. apply mi_body. auto.
  - apply reach_refl.
  - constructor; auto.
Qed.
