(** Every [json_schema] of the modelled types returns a schema: an object or a boolean. *)
From Coq Require Import String List ZArith Bool.
From Verif Require Import Json JsonFacts SchemaApi Private Generate ValidationAttrs ValidationField Types.
Import ListNotations.
Open Scope string_scope.
Open Scope list_scope.

Section Returns.
Context {St : Type}.
Fixpoint returns (p : prog rty St) : Prop :=
  match p with
  | Ret s => is_schema s = true
  | Sub _ k | Call _ k => forall s, is_schema s = true -> returns (k s)
  | ReadSettings k => forall s, returns (k s)
  | ReadDefs k => forall d, returns (k d)
  | _ => False
  end.

Lemma internal_returns (js : rty -> gen rty St -> option (json * gen rty St)) t u g s g' :
  (forall t g s g', js t g = Some (s, g') -> is_schema s = true) -> json_schema_internal js t u g = Some (s, g') -> is_schema s = true.
Proof. intros HJ. unfold json_schema_internal. destruct (js t _) as [[s1 g1]|] eqn:E; [|discriminate]. intros [= <- _]. eauto. Qed.
Lemma sub_returns info (js : rty -> gen rty St -> option (json * gen rty St)) t g s g' :
  (forall t g s g', js t g = Some (s, g') -> is_schema s = true) -> subschema_for info js t g = Some (s, g') -> is_schema s = true.
Proof.
  intros HJ. unfold subschema_for. destruct (find_ref info t g) as [[[r ins] g1]|]; [|apply internal_returns; exact HJ].
  destruct ins as [name|]; [|now intros [= <- _]]. destruct (insert_new_subschema_for _ _ _ _ _); [now intros [= <- _]|discriminate].
Qed.
Lemma run_returns info (js : rty -> gen rty St -> option (json * gen rty St)) p :
  (forall t g s g', js t g = Some (s, g') -> is_schema s = true) -> returns p ->
  forall g s g', run_prog info js p g = Some (s, g') -> is_schema s = true.
Proof.
  intros HJ. induction p as [s0|t k IH|t k IH|t k IH|k IH|k IH|f k IH|b k IH|p IHp k IH]; cbn [returns run_prog]; intros HP g s g'; try contradiction.
  - intros [= <- _]. exact HP.
  - destruct (subschema_for info js t g) as [[s1 g1]|] eqn:E; [|discriminate]. apply IH. apply HP. eapply sub_returns; eauto.
  - destruct (js t g) as [[s1 g1]|] eqn:E; [|discriminate]. apply IH. apply HP. eauto.
  - now apply IH.
  - now apply IH.
Qed.
End Returns.

Section Bodies.
Context {X St : Type}.
Variable items : nat -> item X.
Notation prog := (prog rty St).
Notation keeps k := (forall s, is_schema s = true -> returns (k s)).

Lemma insert_all_schema l : forall s, is_schema s = true -> is_schema (insert_all l s) = true.
Proof. induction l as [|[a x] l IH]; intros s H; [exact H|]. change (insert_all ((a, x) :: l) s) with (insert_all l (insert a x s)). apply IH. reflexivity. Qed.
Lemma mutators_schema (f : field X) s : is_schema s = true -> is_schema (field_mutators f s) = true.
Proof. intros H. unfold field_mutators. destruct (f_skip_de f), (f_skip_ser f); try reflexivity. now apply mutators_is_schema, insert_all_schema. Qed.

Lemma field_returns (f : field X) (k : json -> prog) : keeps k -> returns (field_schema f k).
Proof. intros H. unfold field_schema. destruct (f_required f); cbn [returns]; intros s Hs; apply H; now apply mutators_schema. Qed.
Lemma tuple_returns c (fs : list (field X)) : forall (k : list json -> prog), (forall ss, returns (k ss)) -> returns (tuple_fields c fs k).
Proof.
  induction fs as [|f fs IH]; intros k H; cbn [tuple_fields]; [apply H|]. destruct (included _ _ _); [|now apply IH].
  apply field_returns. intros s _. apply IH. intros ss. apply H.
Qed.
Lemma subs_returns ts : forall (k : list json -> prog), (forall ss, returns (k ss)) -> returns (subs ts k).
Proof. induction ts as [|t ts IH]; intros k H; cbn [subs]; [apply H|]. cbn [returns]. intros s _. apply IH. intros ss. apply H. Qed.

Lemma flatten_schema s o : is_schema s = true -> is_schema (flatten s o) = true.
Proof.
  intros H. unfold flatten. destruct o as [|[|]| | | |]; try exact H; [|reflexivity].
  destruct s; try exact H. destruct (_ && _); reflexivity.
Qed.
Lemma fields_returns def c (fs : list (field X)) : forall s (k : json -> prog), is_schema s = true -> keeps k -> returns (struct_fields def c fs s k).
Proof.
  induction fs as [|f fs IH]; intros s k Hs H; cbn [struct_fields]; [now apply H|].
  destruct (negb _); [now apply IH|]. destruct (f_flatten f).
  - cbn [returns]. intros sub _. apply IH; [now apply flatten_schema|exact H].
  - apply field_returns. intros sub _. apply IH; [reflexivity|exact H].
Qed.
Lemma struct_returns def deny c (fs : list (field X)) (k : json -> prog) : keeps k -> returns (struct_prog def deny c fs k).
Proof. intros H. unfold struct_prog. apply fields_returns; [reflexivity|exact H]. Qed.
Lemma style_returns def deny c (s : style X) (k : json -> prog) : keeps k -> returns (style_prog def deny c s k).
Proof.
  intros H. destruct s as [|f|fs|fs]; cbn [style_prog].
  - exact H.
  - now apply field_returns.
  - apply tuple_returns. intros ss. apply H. reflexivity.
  - now apply struct_returns.
Qed.
Lemma untagged_returns deny c (v : variant X) b (k : json -> prog) : keeps k -> returns (untagged_variant deny c v b k).
Proof. intros H. apply style_returns. intros s Hs. apply H. destruct b; [now apply insert_all_schema|exact Hs]. Qed.
Lemma external_returns deny c (v : variant X) (k : json -> prog) : keeps k -> returns (external_variant deny c v k).
Proof.
  intros H. unfold external_variant. destruct (v_untagged v); [now apply untagged_returns|].
  destruct (v_is_unit v); [apply H; now apply insert_all_schema|]. apply untagged_returns. intros s _. apply H. now apply insert_all_schema.
Qed.
Lemma adjacent_returns deny c tag content (v : variant X) (k : json -> prog) : keeps k -> returns (adjacent_variant deny c tag content v k).
Proof.
  intros H. unfold adjacent_variant. destruct (v_untagged v); [now apply untagged_returns|].
  destruct (v_is_unit v); [apply H; now apply insert_all_schema|]. apply untagged_returns. intros s _. apply H. now apply insert_all_schema.
Qed.
Lemma internal_variant_returns deny c tag (v : variant X) (k : json -> prog) : keeps k -> returns (internal_variant items deny c tag v k).
Proof.
  intros H. unfold internal_variant. destruct (v_untagged v); [now apply untagged_returns|]. cbv zeta.
  assert (HF : forall s, returns (k (insert_all (v_meta v) (apply_internal_tag tag (v_name c v) deny s)))) by (intros s; apply H; now apply insert_all_schema). clear H.
  destruct (v_style v) as [|f|fs|fs].
  - cbn. auto.
  - destruct (f_required f); [apply field_returns; auto|]. cbn [returns]. intros s _ st. destruct (for_internal_newtype _ _ _) as [s' []]; [apply HF|cbn [returns]; auto].
  - apply tuple_returns. auto.
  - apply struct_returns. auto.
Qed.
Lemma variants_returns c one (vs : list (variant X)) : (forall v (k : json -> prog), keeps k -> returns (one v k)) ->
  forall (k : list json -> prog), (forall ss, returns (k ss)) -> returns (variants c one vs k).
Proof.
  intros HO. induction vs as [|v vs IH]; intros k H; cbn [variants]; [apply H|]. destruct (included _ _ _); [|now apply IH].
  apply HO. intros s _. apply IH. intros ss. apply H.
Qed.
Lemma enum_returns deny c tg (vs : list (variant X)) (k : json -> prog) : keeps k -> returns (enum_prog items deny c tg vs k).
Proof.
  intros H. unfold enum_prog. destruct vs as [|v0 vs0]; [now apply H|]. set (vs := v0 :: vs0). clearbody vs. destruct tg.
  - destruct (filter (fun v => negb (plain_unit v)) vs); [now apply H|]. apply variants_returns; [apply external_returns|]. intros ss. now apply H.
  - apply variants_returns; [intros v k'; apply untagged_returns|]. intros ss. now apply H.
  - apply variants_returns; [apply internal_variant_returns|]. intros ss. now apply H.
  - apply variants_returns; [apply adjacent_returns|]. intros ss. now apply H.
Qed.
Lemma data_returns deny c (d : data X) (k : json -> prog) : keeps k -> returns (data_prog items deny c d k).
Proof.
  intros H. induction d as [def s|tg vs|zs|from into own IH]; cbn [data_prog].
  - now apply style_returns.
  - now apply enum_returns.
  - now apply H.
  - destruct (converted c from into); [exact H|exact IH].
Qed.

Lemma allow_null_schema s : is_schema s = true -> is_schema (allow_null s) = true.
Proof.
  destruct s; try discriminate; intros _; cbn [allow_null]; [destruct b; reflexivity|].
  destruct (_ && _); [reflexivity|]. destruct (contains_immediate_subschema m); [reflexivity|]. cbv zeta.
  match goal with |- context [mget "const" ?a] => generalize a end. intros m1. destruct (mget "const" m1); [reflexivity|].
  destruct (mget "enum" m1) as [[]|]; try reflexivity. destruct (existsb _ _); reflexivity.
Qed.
Lemma body_returns t : returns (body (St := St) items t).
Proof.
  induction t; cbn [body]; try reflexivity; try (cbn [returns]; intros; reflexivity); try assumption.
  - cbn [returns]. intros s _. destruct (is_signed i); reflexivity.
  - cbn [returns]. intros st. destruct k; reflexivity.
  - cbn [returns]. intros s Hs. now apply allow_null_schema.
  - destruct n; [reflexivity|]. cbn [returns]. reflexivity.
  - apply subs_returns. reflexivity.
  - cbn [returns]. intros ks _ vs _ st defs. unfold map_schema. destruct (key_options ks); reflexivity.
  - cbn [returns]. intros st. unfold decl_prog. apply data_returns. intros s Hs. now apply insert_all_schema.
Qed.
End Bodies.

Theorem json_schema_returns {X St} (items : nat -> item X) m : forall t (g : gen rty St) s g',
  json_schema (info items) m t g = Some (s, g') -> is_schema s = true.
Proof.
  induction m as [|m IH]; intros t g s g'; cbn [json_schema]; [discriminate|].
  destruct (run_prog _ _ _ _) as [[s1 g1]|] eqn:E; [|discriminate]. intros [= <- _].
  exact (run_returns _ _ _ IH (body_returns items t) _ _ _ E).
Qed.
