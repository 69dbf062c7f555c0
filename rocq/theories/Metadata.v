(** What is attached to a type, a field or a variant, in the schema derived for the type. *)
From Coq Require Import String Ascii List ZArith Bool Lia.
From Verif Require Import Json JsonFacts Utf8 SchemaApi Transform Validate ValidateFacts ValidateKw ValidationAttrs ValidationProofs ValidationField Private PrivateProps PrivateTag
  ShapeFacts PrivateFlatten PrivateForFlatten Generate SerValue Types TypesShape Serde SerdeFacts Derivation SoundBase SoundStruct
  SoundTypes Sound Required RequiredDerive RequiredSerde RequiredVariants Defaults.
Import ListNotations.
Open Scope string_scope.
Open Scope list_scope.

(** ** Specification *)
(** [x] is the last value that the list gives to the key [k]. *)
Definition says (l : list (string * json)) (k : string) (x : json) : Prop :=
  exists l1 l2, l = l1 ++ (k, x) :: l2 /\ ~ In k (map fst l2).
(** The schema has every key of the list, with its value, except for the keys [but]. *)
Definition carries (but : list string) (l : list (string * json)) (s : json) : Prop :=
  forall k x, says l k x -> ~ In k but -> s_get k s = Some x.

Lemma get_insert k k' x s : s_get k (insert k' x s) = if String.eqb k k' then Some x else mget k (ensure_obj s).
Proof. unfold insert. cbn [s_get]. now rewrite mget_mset. Qed.
Lemma get_insert_other k k' x y s : k <> k' -> s_get k s = Some y -> s_get k (insert k' x s) = Some y.
Proof. intros HN H. rewrite get_insert. destruct (String.eqb_spec k k'); [contradiction|]. destruct s; try discriminate H. exact H. Qed.

Lemma get_insert_all k y : forall l s, ~ In k (map fst l) -> s_get k s = Some y -> s_get k (insert_all l s) = Some y.
Proof.
  induction l as [|[k' x] l IH]; intros s HN H; [exact H|]. rewrite insert_all_cons. cbn [fst snd]. apply IH; [intros HI; apply HN; now right|].
  apply get_insert_other; [|exact H]. intros ->. apply HN. now left.
Qed.
Lemma insert_all_carries l s : carries [] l (insert_all l s).
Proof.
  intros k x (l1 & l2 & -> & HN) _. revert s. induction l1 as [|[k' y] l1 IH]; intros s; cbn [app]; rewrite insert_all_cons; [|apply IH].
  apply get_insert_all; [exact HN|]. cbn [fst snd]. rewrite get_insert, String.eqb_refl. reflexivity.
Qed.
Lemma carries_more but but' l s : incl but but' -> carries but l s -> carries but' l s.
Proof. intros HI H k x HS HN. apply H; [exact HS|]. intros HB. now apply HN, HI. Qed.

(** ** Fields *)
(** The keys that the attributes of a field other than its metadata set *)
Definition field_words : list string := "items" :: "default" :: "readOnly" :: "writeOnly" :: validation_keywords.

Lemma mutators_get k y a s : ~ In k ("items" :: validation_keywords) -> s_get k s = Some y -> s_get k (add_mutators a s) = Some y.
Proof.
  intros HN H. rewrite add_mutators_unfold. assert (HO : s_get k (add_outer a s) = Some y).
  { apply (outer_ind (fun s => s_get k s = Some y)); [exact H|]. intros s' k' x Hin Hs'. apply entries_key in Hin.
    apply get_insert_other; [|exact Hs']. intros ->. apply HN. now right. }
  destruct (va_inner a) as [i|]; [|exact HO]. unfold apply_inner_validation. destruct (s_get "items" (add_outer a s)) eqn:EI; [|exact HO].
  destruct (is_schema j); [|exact HO]. destruct (add_outer a s) as [| | | | |m]; try discriminate HO. cbn [s_get_mut_set] in *.
  destruct (mhas "items" m); [|exact HO]. cbn [fst s_get] in *. rewrite mget_mupd. destruct (String.eqb_spec k "items") as [->|]; [|exact HO].
  elim HN. now left.
Qed.

Lemma field_carries {X} def (f : field X) s : let p := insert_default def f (field_mutators f s) in
  carries field_words (f_meta f) p
  /\ (f_skip_de f = true -> s_get "readOnly" p = Some (JBool true)) /\ (f_skip_ser f = true -> s_get "writeOnly" p = Some (JBool true)).
Proof.
  cbv zeta. assert (HD : forall k y s, k <> "default" -> s_get k s = Some y -> s_get k (insert_default def f s) = Some y).
  { intros k y s' HN H. unfold insert_default. destruct (_ || _); [exact H|]. destruct (f_default_value f); [|exact H]. now apply get_insert_other. }
  split; [|split].
  - intros k x HS HN. apply HD; [intros ->; apply HN; cbn; auto|]. unfold field_mutators.
    assert (H1 : s_get k (add_mutators (f_valid f) (insert_all (f_meta f) s)) = Some x).
    { apply mutators_get; [|apply insert_all_carries; [exact HS|intros []]]. intros [<-|HI]; apply HN; [now left|]. do 4 right. exact HI. }
    assert (H2 : s_get k (if f_skip_de f then insert "readOnly" (JBool true) (add_mutators (f_valid f) (insert_all (f_meta f) s))
                          else add_mutators (f_valid f) (insert_all (f_meta f) s)) = Some x).
    { destruct (f_skip_de f); [|exact H1]. apply get_insert_other; [intros ->; apply HN; cbn; auto|exact H1]. }
    destruct (f_skip_ser f); [|exact H2]. apply get_insert_other; [intros ->; apply HN; cbn; auto|exact H2].
  - intros HS. apply HD; [discriminate|]. unfold field_mutators. rewrite HS.
    destruct (f_skip_ser f); [apply get_insert_other; [discriminate|]|]; rewrite get_insert; reflexivity.
  - intros HS. apply HD; [discriminate|]. unfold field_mutators. rewrite HS. rewrite get_insert. reflexivity.
Qed.

(** ** Types and variants *)
Section Any.
Context {X St : Type}.
Variable items : nat -> item X.
Variable S : settings St.
Notation c := (s_contract S).
Variable seen : map_t -> Prop.
Notation post_ := (Derivation.post S seen (fun _ _ => True) (fun _ _ => True)).

Lemma field_any (f : field X) (Q : json -> Prop) k : (forall s, post_ Q (k s)) -> post_ Q (field_schema f k).
Proof. intros H. unfold field_schema. destruct (f_required f); cbn [Derivation.post]; auto. Qed.
Lemma tuple_any (Q : json -> Prop) : forall (fs : list (field X)) k, (forall ss, post_ Q (k ss)) -> post_ Q (tuple_fields c fs k).
Proof.
  induction fs as [|f fs IH]; intros k H; cbn [tuple_fields]; [apply H|]. destruct (included _ _ _); [|now apply IH].
  apply field_any. intros s. apply IH. auto.
Qed.
Lemma fields_any def (Q : json -> Prop) : forall (fs : list (field X)) s k, (forall s, post_ Q (k s)) -> post_ Q (struct_fields def c fs s k).
Proof.
  induction fs as [|f fs IH]; intros s k H; cbn [struct_fields]; [apply H|]. destruct (negb _); [now apply IH|].
  destruct (f_flatten f); [cbn [Derivation.post]; auto|]. apply field_any. auto.
Qed.
Lemma style_any def deny (Q : json -> Prop) (s : style X) k : (forall s, post_ Q (k s)) -> post_ Q (style_prog def deny c s k).
Proof.
  intros H. destruct s as [|f|fs|fs]; cbn [style_prog].
  - cbn [unit_prog Derivation.post]. auto.
  - now apply field_any.
  - apply tuple_any. auto.
  - now apply fields_any.
Qed.

(** The schema of a variant carries its metadata, if it is an alternative of its own. *)
Definition vc (v : variant X) (s : json) : Prop := carries [] (v_meta v) s.
Lemma untagged_any deny (Q : json -> Prop) v k : (forall s, vc v s -> post_ Q (k s)) -> post_ Q (untagged_variant deny c v true k).
Proof. intros H. apply style_any. intros s. apply H, insert_all_carries. Qed.
Lemma variants_any (one : variant X -> (json -> prog rty St) -> prog rty St) (Q : json -> Prop) :
  (forall v k, (forall s, vc v s -> post_ Q (k s)) -> post_ Q (one v k)) ->
  forall vs k, (forall ss, (forall v, In v vs -> v_takes_part c v -> exists s, In s ss /\ vc v s) -> post_ Q (k ss)) -> post_ Q (variants c one vs k).
Proof.
  intros HO. induction vs as [|v vs IH]; intros k H; cbn [variants]; [apply H; intros v []|].
  destruct (included (v_skip_de v) (v_skip_ser v) c) eqn:EI.
  - apply HO. intros s Hs. apply IH. intros ss Hss. apply H. intros w [<-|Hw] HT; [exists s; split; [now left|exact Hs]|].
    destruct (Hss w Hw HT) as (s' & H1 & H2). exists s'. split; [now right|exact H2].
  - apply IH. intros ss Hss. apply H. intros w [<-|Hw] HT; [|auto]. exfalso. unfold v_takes_part in HT. unfold included in EI. destruct c; rewrite HT in EI; discriminate.
Qed.

Lemma external_any deny (Q : json -> Prop) v k : (forall s, vc v s -> post_ Q (k s)) -> post_ Q (external_variant deny c v k).
Proof.
  intros H. unfold external_variant. destruct (v_untagged v); [now apply untagged_any|]. destruct (v_is_unit v); [apply H, insert_all_carries|].
  apply style_any. intros s. apply H, insert_all_carries.
Qed.
Lemma adjacent_any deny tag content (Q : json -> Prop) v k : (forall s, vc v s -> post_ Q (k s)) -> post_ Q (adjacent_variant deny c tag content v k).
Proof.
  intros H. unfold adjacent_variant. destruct (v_untagged v); [now apply untagged_any|]. destruct (v_is_unit v); [apply H, insert_all_carries|].
  apply style_any. intros s. apply H, insert_all_carries.
Qed.
Lemma internal_any deny tag (Q : json -> Prop) v k : (forall s, vc v s -> post_ Q (k s)) -> post_ Q (internal_variant items deny c tag v k).
Proof.
  intros H. unfold internal_variant. destruct (v_untagged v); [now apply untagged_any|]. cbv zeta.
  assert (HN : forall s, post_ Q (k (insert_all (v_meta v) (apply_internal_tag tag (v_name c v) deny s)))) by (intros s; apply H, insert_all_carries).
  destruct (v_style v) as [|f|fs|fs].
  - cbn [unit_prog Derivation.post]. auto.
  - destruct (f_required f); [now apply field_any|]. cbn [Derivation.post]. intros s _.
    destruct (for_internal_newtype _ _ _) as [s' [|]]; [apply HN|cbn [Derivation.post]; auto].
  - apply tuple_any. auto.
  - now apply fields_any.
Qed.

Lemma variants_just (one : variant X -> (json -> prog rty St) -> prog rty St) (Q : json -> Prop) :
  (forall v k, (forall s, post_ Q (k s)) -> post_ Q (one v k)) -> forall vs k, (forall ss, post_ Q (k ss)) -> post_ Q (variants c one vs k).
Proof.
  intros HO. induction vs as [|v vs IH]; intros k H; cbn [variants]; [apply H|]. destruct (included _ _ _); [|auto]. apply HO. intros s. apply IH. auto.
Qed.
Lemma enum_any deny tg (Q : json -> Prop) (vs : list (variant X)) k : (forall s, post_ Q (k s)) -> post_ Q (enum_prog items deny c tg vs k).
Proof.
  intros H. unfold enum_prog. destruct vs as [|v0 vs0]; [apply H|]. set (vs := v0 :: vs0). clearbody vs. destruct tg.
  - destruct (filter (fun v => negb (plain_unit v)) vs) as [|w ws]; [apply H|]. apply variants_just; auto. intros v k' Hk. apply external_any. auto.
  - apply variants_just; auto. intros v k' Hk. apply untagged_any. auto.
  - apply variants_just; auto. intros v k' Hk. apply internal_any. auto.
  - apply variants_just; auto. intros v k' Hk. apply adjacent_any. auto.
Qed.
Lemma data_any deny (Q : json -> Prop) (d : data X) k : (forall s, post_ Q (k s)) -> post_ Q (data_prog items deny c d k).
Proof.
  intros H. induction d as [def s|tg vs|zs|from into own IH]; cbn [data_prog].
  - now apply style_any.
  - now apply enum_any.
  - apply H.
  - destruct (converted c from into); [cbn [Derivation.post]; auto|exact IH].
Qed.

(** Alternatives that carry the metadata of the variants *)
Definition described (vs : list (variant X)) (s : json) : Prop := forall v, In v vs -> v_takes_part c v -> v_meta v <> [] ->
  exists l e, alternatives s l /\ In e l /\ vc v e.
Lemma keyed l : (forall k x, In (k, x) l -> k <> "oneOf" /\ k <> "anyOf") -> forall m, exists m', insert_all l (JObj m) = JObj m' /\
  mget "oneOf" m' = mget "oneOf" m /\ mget "anyOf" m' = mget "anyOf" m.
Proof.
  induction l as [|[k x] l IH]; intros W m; [now exists m|]. rewrite insert_all_cons. unfold insert. cbn [fst snd ensure_obj ensure_object].
  destruct (IH (fun k x H => W k x (or_intror H)) (mset k x m)) as (m' & E & H1 & H2). exists m'. split; [exact E|].
  destruct (W k x (or_introl eq_refl)) as [N1 N2]. rewrite H1, H2, !mget_mset.
  destruct (String.eqb_spec "oneOf" k); [congruence|]. destruct (String.eqb_spec "anyOf" k); [congruence|]. now split.
Qed.
Lemma schemas_described d l ss unique vs more : (forall k x, In (k, x) d -> k <> "oneOf" /\ k <> "anyOf") ->
  (forall v, In v vs -> v_meta v <> [] -> In v l) ->
  (forall v, In v l -> v_takes_part c v -> exists s, In s ss /\ vc v s) -> described vs (insert_all d (variant_schemas unique l (more ++ ss))).
Proof.
  intros HD HL HSs v Hv HT HM. destruct (HSs v (HL v Hv HM) HT) as (e & He & HQ). unfold variant_schemas, obj.
  match goal with |- context [insert_all _ (JObj ?m)] => destruct (keyed d HD m) as (m' & -> & K1 & K2) end.
  exists (more ++ ss), e. split; [|split; [apply in_or_app; now right|exact HQ]].
  exists m'. split; [reflexivity|]. destruct (unique && negb (existsb v_untagged l)); [left; rewrite K1|right; rewrite K2]; reflexivity.
Qed.
Lemma enum_described d deny tg vs : (forall k x, In (k, x) d -> k <> "oneOf" /\ k <> "anyOf") ->
  post_ (described vs) (enum_prog items deny c tg vs (fun s => Ret (insert_all d s))).
Proof.
  intros HD. unfold enum_prog. destruct vs as [|v0 vs0]; [cbn [Derivation.post]; intros v []|]. set (vs := v0 :: vs0). clearbody vs. clear v0 vs0. destruct tg.
  - assert (HL : forall v, In v vs -> v_meta v <> [] -> In v (filter (fun v => negb (plain_unit v)) vs)).
    { intros v Hv HM. apply filter_In. split; [exact Hv|]. unfold plain_unit. destruct (v_meta v); [congruence|]. now rewrite andb_false_r. }
    destruct (filter (fun v => negb (plain_unit v)) vs) as [|v0 l0] eqn:EF.
    + cbn [Derivation.post]. intros v Hv HT HM. destruct (HL v Hv HM).
    + apply variants_any; [apply external_any|]. intros ss Hss. cbn [Derivation.post].
      destruct (filter plain_unit vs); [apply schemas_described with (more := [])|apply schemas_described with (more := [_])]; auto.
  - apply variants_any; [apply untagged_any|]. intros ss Hss. cbn [Derivation.post]. apply schemas_described with (more := []); auto.
  - apply variants_any; [apply internal_any|]. intros ss Hss. cbn [Derivation.post]. apply schemas_described with (more := []); auto.
  - apply variants_any; [apply adjacent_any|]. intros ss Hss. cbn [Derivation.post]. apply schemas_described with (more := []); auto.
Qed.
End Any.

Lemma derives_meta {X St} (items : nat -> item X) (S : settings St) seen ans (R : rty -> Prop) i cs ts s :
  derives (info items) R S ans seen (TAdt i cs ts) s -> carries [] (d_meta (it_decl (items i) cs ts)) s.
Proof.
  intros H. inversion H as [t0 s0 HRun]; subst. cbn [info t_body body] in HRun. inversion HRun as [|?|?|?|k s1 HRun' Y1 Y2|?]; subst.
  apply (run_post (info items) R S ans seen (fun _ _ => True) (fun _ _ => True)) with (Q := carries [] (d_meta (it_decl (items i) cs ts))) in HRun'; auto.
  unfold decl_prog. apply data_any. intros s'. cbn [Derivation.post]. apply insert_all_carries.
Qed.

Lemma derives_described {X St} (items : nat -> item X) (S : settings St) seen ans (R : rty -> Prop) i cs ts tg vs s :
  d_data (it_decl (items i) cs ts) = DEnum tg vs ->
  (forall k x, In (k, x) (d_meta (it_decl (items i) cs ts)) -> k <> "oneOf" /\ k <> "anyOf") ->
  derives (info items) R S ans seen (TAdt i cs ts) s -> described S vs s.
Proof.
  intros HD HM H. inversion H as [t0 s0 HRun]; subst. cbn [info t_body body] in HRun. inversion HRun as [|?|?|?|k s1 HRun' Y1 Y2|?]; subst.
  apply (run_post (info items) R S ans seen (fun _ _ => True) (fun _ _ => True)) with (Q := described S vs) in HRun'; auto.
  unfold decl_prog. rewrite HD. cbn [data_prog]. now apply enum_described.
Qed.
