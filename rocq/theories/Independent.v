(** Proofs: two generators whose settings agree on the definitions path, on inlining and on the
    contract work alike, whatever their meta schemas and transforms are. *)
From Coq Require Import String List ZArith Bool.
From Verif Require Import Json JsonFacts SchemaApi Pointer Private Generate Types.
Import ListNotations.
Open Scope string_scope.
Open Scope list_scope.

Section Sim.
Context {Ty S1 S2 : Type}.

Definition agree (a : settings S1) (b : settings S2) : Prop :=
  s_path a = s_path b /\ s_inline a = s_inline b /\ s_contract a = s_contract b.

Inductive alike_prog : prog Ty S1 -> prog Ty S2 -> Prop :=
| AlRet s : alike_prog (Ret s) (Ret s)
| AlSub t k k' : (forall s, alike_prog (k s) (k' s)) -> alike_prog (Sub t k) (Sub t k')
| AlCall t k k' : (forall s, alike_prog (k s) (k' s)) -> alike_prog (Call t k) (Call t k')
| AlSettings k k' : (forall a b, agree a b -> alike_prog (k a) (k' b)) -> alike_prog (ReadSettings k) (ReadSettings k')
| AlDefs k k' : (forall d, alike_prog (k d) (k' d)) -> alike_prog (ReadDefs k) (ReadDefs k').

Variables (sa : settings S1) (sb : settings S2) (xa : S1) (xb : S2).
Hypothesis HA : agree sa sb.
(** Generators with the settings [sa] and [sb] that are otherwise the same *)
Record sim (g : gen Ty S1) (h : gen Ty S2) : Prop := {
  si_set : g_set g = sa /\ g_set h = sb;
  si_tst : g_tst g = xa /\ g_tst h = xb;
  si_defs : g_defs g = g_defs h;
  si_pending : g_pending g = g_pending h;
  si_names : g_names g = g_names h;
  si_used : g_used g = g_used h;
  si_roots : g_roots g = g_roots h;
  si_log : g_log g = g_log h }.

(** Both return the same, leaving generators that are alike, or neither returns. *)
Definition sim_res {A} (a : option (A * gen Ty S1)) (b : option (A * gen Ty S2)) : Prop :=
  match a, b with
  | Some (x, g), Some (y, h) => x = y /\ sim g h
  | None, None => True
  | _, _ => False
  end.

Ltac si := match goal with H : sim _ _ |- _ => destruct H end.
Lemma sim_with_defs g h d : sim g h -> sim (with_defs d g) (with_defs d h).
Proof. intros; si; constructor; auto. Qed.
Lemma sim_with_pending g h d : sim g h -> sim (with_pending d g) (with_pending d h).
Proof. intros; si; constructor; auto. Qed.
Lemma sim_with_roots g h d : sim g h -> sim (with_roots d g) (with_roots d h).
Proof. intros; si; constructor; auto. Qed.
Lemma sim_with_name g h u n : sim g h -> sim (with_name u n g) (with_name u n h).
Proof. intros; si; constructor; cbn; congruence. Qed.
Lemma sim_emit g h e : sim g h -> sim (emit e g) (emit e h).
Proof. intros; si; constructor; cbn; congruence. Qed.

Variable info1 : Ty -> tyinfo Ty S1.
Variable info2 : Ty -> tyinfo Ty S2.
Hypothesis HI : forall t, t_inline (info1 t) = t_inline (info2 t).
Hypothesis HN : forall t, t_name (info1 t) = t_name (info2 t).
Hypothesis HD : forall t, t_id (info1 t) = t_id (info2 t).
Hypothesis HB : forall t, alike_prog (t_body (info1 t)) (t_body (info2 t)).

Lemma sim_uid g h t : sim g h -> uid_of info1 g t = uid_of info2 h t.
Proof. intros; si. destruct si_set0 as [H1 H2]. destruct HA as (_ & _ & H). unfold uid_of. now rewrite HD, H1, H2, H. Qed.

Lemma sim_find_ref g h t : sim g h ->
  match find_ref info1 t g, find_ref info2 t h with
  | Some (r, i, g1), Some (r', i', h1) => r = r' /\ i = i' /\ sim g1 h1
  | None, None => True
  | _, _ => False
  end.
Proof.
  intros H. pose proof (sim_uid g h t H) as EU. pose proof H as [[S1' S2'] _ E1 E2 E3 E4 E5 _]. destruct HA as (P1 & P2 & P3).
  unfold find_ref. rewrite S1', S2'. rewrite <- EU, <- HI, <- P1, <- P2, <- E2, <- E3, <- E4, <- E5, <- HN.
  destruct (negb _); [exact I|]. destruct (match g_roots g with [] => false | r :: _ => uid_eqb r (uid_of info1 g t) end); [auto|].
  destruct (uget (uid_of info1 g t) (g_names g)) as [n|].
  - cbn [g_defs with_name]. rewrite E1. auto.
  - cbn [g_defs with_name]. rewrite E1. split; [reflexivity|]. split; [reflexivity|]. now apply sim_with_name.
Qed.

Section Js.
Variable js1 : Ty -> gen Ty S1 -> option (json * gen Ty S1).
Variable js2 : Ty -> gen Ty S2 -> option (json * gen Ty S2).
Hypothesis HJ : forall t g h, sim g h -> sim_res (js1 t g) (js2 t h).

Lemma sim_internal t u g h : sim g h -> sim_res (json_schema_internal js1 t u g) (json_schema_internal js2 t u h).
Proof.
  intros H. unfold json_schema_internal. rewrite <- (si_pending _ _ H).
  assert (H1 : sim (if negb (umem u (g_pending g)) then with_pending (u :: g_pending g) g else g)
                   (if negb (umem u (g_pending g)) then with_pending (u :: g_pending g) h else h))
    by (destruct (negb _); [now apply sim_with_pending|exact H]).
  specialize (HJ t _ _ H1). unfold sim_res in *. destruct (js1 t _) as [[s g2]|], (js2 t _) as [[s' h2]|]; try contradiction; [|exact I].
  destruct HJ as [-> HS]. split; [reflexivity|]. destruct (negb _); [|exact HS]. rewrite (si_pending _ _ HS). now apply sim_with_pending.
Qed.

Lemma sim_sub t g h : sim g h -> sim_res (subschema_for info1 js1 t g) (subschema_for info2 js2 t h).
Proof.
  intros H. unfold subschema_for. pose proof (sim_find_ref g h t H) as HF. rewrite <- (sim_uid g h t H), <- (si_roots _ _ H).
  destruct (find_ref info1 t g) as [[[r i] g1]|], (find_ref info2 t h) as [[[r' i'] h1]|]; try contradiction; [|now apply sim_internal].
  destruct HF as (<- & <- & HF). apply (sim_emit _ _ (EvRef (g_roots g) t r)) in HF.
  destruct i as [name|]; [|split; [reflexivity|exact HF]]. unfold insert_new_subschema_for. rewrite <- (si_defs _ _ HF).
  match goal with |- context[json_schema_internal js1 ?t ?u ?a] => match goal with |- context[json_schema_internal js2 t u ?b] =>
    assert (HX : sim_res (json_schema_internal js1 t u a) (json_schema_internal js2 t u b)) by (apply sim_internal, sim_with_defs, HF) end end.
  unfold sim_res in *. destruct (json_schema_internal js1 _ _ _) as [[s g2]|], (json_schema_internal js2 _ _ _) as [[s' h2]|]; try contradiction; [|exact I].
  destruct HX as [-> HX]. split; [reflexivity|]. rewrite (si_defs _ _ HX). apply sim_emit. now apply sim_with_defs.
Qed.

Lemma sim_run p q : alike_prog p q -> forall g h, sim g h -> sim_res (run_prog info1 js1 p g) (run_prog info2 js2 q h).
Proof.
  induction 1 as [s|t k k' _ IH|t k k' _ IH|k k' _ IH|k k' _ IH]; intros g h H; cbn [run_prog].
  - split; [reflexivity|exact H].
  - pose proof (sim_sub t g h H) as HS. unfold sim_res in HS. destruct (subschema_for info1 _ _ _) as [[s g1]|], (subschema_for info2 _ _ _) as [[s' h1]|]; try contradiction; [|exact I].
    destruct HS as [<- HS]. now apply IH.
  - pose proof (HJ t g h H) as HS. unfold sim_res in HS. destruct (js1 t g) as [[s g1]|], (js2 t h) as [[s' h1]|]; try contradiction; [|exact I].
    destruct HS as [<- HS]. now apply IH.
  - destruct (si_set _ _ H) as [-> ->]. apply IH; [apply HA|exact H].
  - rewrite <- (si_defs _ _ H). now apply IH.
Qed.
End Js.

Lemma sim_json_schema n : forall t g h, sim g h -> sim_res (json_schema info1 n t g) (json_schema info2 n t h).
Proof.
  induction n as [|n IH]; intros t g h H; cbn [json_schema]; [exact I|].
  pose proof (sim_run _ _ IH _ _ (HB t) _ _ (sim_emit _ _ (EvRun t) H)) as HS. unfold sim_res in *.
  destruct (run_prog info1 _ _ _) as [[s g1]|], (run_prog info2 _ _ _) as [[s' h1]|]; try contradiction; [|exact I].
  destruct HS as [<- HS]. split; [reflexivity|]. now apply sim_emit.
Qed.
End Sim.

(** ** The implementations of schemars read nothing else *)
Section Bodies.
Context {X S1 S2 : Type}.
Variable items : nat -> item X.
Notation P1 := (prog rty S1). Notation P2 := (prog rty S2).
Notation al := (@alike_prog rty S1 S2).

Lemma al_field (f : field X) (k : json -> P1) (k' : json -> P2) : (forall s, al (k s) (k' s)) -> al (field_schema f k) (field_schema f k').
Proof. intros H. unfold field_schema. destruct (f_required f); constructor; auto. Qed.
Lemma al_subs ts : forall (k : list json -> P1) (k' : list json -> P2), (forall s, al (k s) (k' s)) -> al (subs ts k) (subs ts k').
Proof. induction ts as [|t ts IH]; intros k k' H; cbn [subs]; [apply H|]. constructor. intros s. apply IH. auto. Qed.
Lemma al_tuple c (fs : list (field X)) : forall (k : list json -> P1) (k' : list json -> P2), (forall s, al (k s) (k' s)) -> al (tuple_fields c fs k) (tuple_fields c fs k').
Proof.
  induction fs as [|f fs IH]; intros k k' H; cbn [tuple_fields]; [apply H|]. destruct (included _ _ _); [|now apply IH]. apply al_field. intros s. now apply IH.
Qed.
Lemma al_struct def c (fs : list (field X)) : forall s (k : json -> P1) (k' : json -> P2), (forall s, al (k s) (k' s)) -> al (struct_fields def c fs s k) (struct_fields def c fs s k').
Proof.
  induction fs as [|f fs IH]; intros s k k' H; cbn [struct_fields]; [apply H|]. destruct (negb _); [now apply IH|]. destruct (f_flatten f).
  - constructor. intros s'. now apply IH.
  - apply al_field. intros s'. now apply IH.
Qed.
Lemma al_style def deny c (s : style X) (k : json -> P1) (k' : json -> P2) : (forall s, al (k s) (k' s)) -> al (style_prog def deny c s k) (style_prog def deny c s k').
Proof.
  intros H. destruct s as [|f|fs|fs]; cbn [style_prog].
  - unfold unit_prog. now constructor.
  - now apply al_field.
  - now apply al_tuple.
  - unfold struct_prog. now apply al_struct.
Qed.
Lemma al_untagged deny c (v : variant X) b (k : json -> P1) (k' : json -> P2) : (forall s, al (k s) (k' s)) -> al (untagged_variant deny c v b k) (untagged_variant deny c v b k').
Proof. intros H. unfold untagged_variant. now apply al_style. Qed.
Lemma al_external deny c (v : variant X) (k : json -> P1) (k' : json -> P2) : (forall s, al (k s) (k' s)) -> al (external_variant deny c v k) (external_variant deny c v k').
Proof. intros H. unfold external_variant. destruct (v_untagged v); [now apply al_untagged|]. destruct (v_is_unit v); [apply H|]. now apply al_untagged. Qed.
Lemma al_adjacent deny c a b (v : variant X) (k : json -> P1) (k' : json -> P2) : (forall s, al (k s) (k' s)) -> al (adjacent_variant deny c a b v k) (adjacent_variant deny c a b v k').
Proof. intros H. unfold adjacent_variant. destruct (v_untagged v); [now apply al_untagged|]. destruct (v_is_unit v); [apply H|]. now apply al_untagged. Qed.
Lemma al_internal deny c tag (v : variant X) (k : json -> P1) (k' : json -> P2) : (forall s, al (k s) (k' s)) -> al (internal_variant items deny c tag v k) (internal_variant items deny c tag v k').
Proof.
  intros H. unfold internal_variant. destruct (v_untagged v); [now apply al_untagged|]. destruct (v_style v) as [|f|fs|fs].
  - unfold unit_prog. now constructor.
  - destruct (f_required f); [now apply al_field|]. constructor. intros s. constructor. intros a b HA.
    destruct HA as (_ & HA & _). rewrite HA. destruct (for_internal_newtype _ _ s) as [s' []]; [apply H|]. now constructor.
  - now apply al_tuple.
  - unfold struct_prog. now apply al_struct.
Qed.
Lemma al_variants c (one1 : variant X -> (json -> P1) -> P1) (one2 : variant X -> (json -> P2) -> P2) :
  (forall v k k', (forall s, al (k s) (k' s)) -> al (one1 v k) (one2 v k')) ->
  forall vs (k : list json -> P1) (k' : list json -> P2), (forall s, al (k s) (k' s)) -> al (variants c one1 vs k) (variants c one2 vs k').
Proof.
  intros HO. induction vs as [|v vs IH]; intros k k' H; cbn [variants]; [apply H|]. destruct (included _ _ _); [|now apply IH]. apply HO. intros s. now apply IH.
Qed.
Lemma al_enum deny c tg (vs : list (variant X)) (k : json -> P1) (k' : json -> P2) : (forall s, al (k s) (k' s)) -> al (enum_prog items deny c tg vs k) (enum_prog items deny c tg vs k').
Proof.
  intros H. unfold enum_prog. destruct vs as [|v0 vs0] eqn:EV; [apply H|]. rewrite <- EV in *. clear EV v0 vs0.
  destruct tg as [| |tag|tag content].
  - set (cpx := filter (fun v => negb (plain_unit v)) vs). destruct cpx as [|c0 cpx0] eqn:EC; [apply H|]. rewrite <- EC.
    apply al_variants; auto. intros; now apply al_external.
  - apply al_variants; auto. intros; now apply al_untagged.
  - apply al_variants; auto. intros; now apply al_internal.
  - apply al_variants; auto. intros; now apply al_adjacent.
Qed.

Lemma al_body t : al (body (St := S1) items t) (body (St := S2) items t).
Proof.
  induction t; cbn [body]; auto; try (repeat (constructor; intros); fail).
  - constructor. intros a b (_ & _ & HA). rewrite HA. constructor.
  - destruct n; repeat (constructor; intros).
  - apply al_subs. intros; constructor.
  - constructor. intros ks. constructor. intros vs. constructor. intros a b (HA & _). rewrite HA. repeat (constructor; intros).
  - constructor. intros a b (_ & _ & HA). rewrite HA. constructor.
  - constructor. intros a b (_ & _ & HA). rewrite HA. repeat (constructor; intros).
  - constructor. intros a b (_ & _ & HA). rewrite HA. unfold decl_prog. induction (d_data _) as [def s|tg vs|zs|f i o IH]; cbn [data_prog].
    + apply al_style. intros; constructor.
    + apply al_enum. intros; constructor.
    + constructor.
    + destruct (converted (s_contract b) f i); [constructor; intros; constructor|exact IH].
Qed.
End Bodies.
