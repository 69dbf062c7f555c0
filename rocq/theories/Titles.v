(** The setting [untagged_enum_variant_titles]: with it, the code derived for a variant without a tag first
    inserts the name of the variant as its title.

    Values of the type are the same, and so is everything that soundness asks of the declarations. *)
From Coq Require Import String Ascii List ZArith Bool Lia.
From Verif Require Import Json JsonFacts Utf8 SchemaApi Transform Validate ValidateFacts ValidateKw ValidationAttrs ValidationProofs Private PrivateProps
  ShapeFacts PrivateFlatten Generate SerValue Types TypesShape Serde SerdeFacts Derivation SoundBase SoundStruct
  SoundTypes SoundAdt TypeId Sound.
Import ListNotations.
Open Scope string_scope.
Open Scope list_scope.

(** ** Model *)
(** schema_exprs.rs:585-596: [is_actually_untagged]; generate.rs:63 *)
Definition without_tag {X} (tg : tagging) (v : variant X) : bool :=
  match tg with Untagged => true | _ => v_untagged v end.
(** schema_exprs.rs:586-595: the title is inserted before what the attributes of the variant insert
    ([add_mutators]), so a title among these replaces it, and inserting it only if there is no title attribute
    makes no difference. The name is that of the contract (schemars_derive/src/ast/mod.rs:83-86, name.rs). *)
Definition titled_variant {X} (c : contract) (tg : tagging) (v : variant X) : variant X :=
  if without_tag tg v
  then Variant (v_ser v) (v_de v) (v_skip_ser v) (v_skip_de v) (v_untagged v) (v_style v) (("title", JStr (v_name c v)) :: v_meta v)
  else v.
(** The declarations as the derived code reads them if the setting is on: [untagged_variant] of Types.v, run for the
    titled variant, is schema_exprs.rs:557-599 with it. *)
Fixpoint titled_data {X} (c : contract) (d : data X) : data X :=
  match d with
  | DEnum tg vs => DEnum tg (map (titled_variant c tg) vs)
  | DConv from into own => DConv from into (titled_data c own)
  | _ => d
  end.
Definition titled_decl {X} (c : contract) (d : decl X) : decl X := Decl (d_deny d) (titled_data c (d_data d)) (d_meta d).
Definition titled {X} (c : contract) (items : nat -> item X) (n : nat) : item X :=
  Item (it_module (items n)) (it_name (items n)) (it_format (items n)) (it_inline (items n)) (fun cs ts => titled_decl c (it_decl (items n) cs ts)).

Section Same.
Variable c : contract.

Lemma titled_same {X} tg (v : variant X) : let v' := titled_variant c tg v in
  v_ser v' = v_ser v /\ v_de v' = v_de v /\ v_skip_ser v' = v_skip_ser v /\ v_skip_de v' = v_skip_de v /\ v_untagged v' = v_untagged v /\ v_style v' = v_style v.
Proof. unfold titled_variant. destruct (without_tag tg v); cbn; repeat split. Qed.
Ltac tv tg v := destruct (titled_same tg v) as (?TV1 & ?TV2 & ?TV3 & ?TV4 & ?TV5 & ?TV6); cbv zeta in *.

(** ** Values *)
Section Values.
Variable items : nat -> item rval.
Variable text_ok : checks.
Variable strict : bool.
Notation ser_ := (ser items text_ok strict).
Notation ser' := (ser (titled c items) text_ok strict).

Definition alike (x y : part) : Prop := fst x = fst y /\ forall t, snd x t = snd y t.
Lemma alike_field f x y : alike x y -> ser_field text_ok strict f x = ser_field text_ok strict f y.
Proof. intros [H1 H2]. unfold ser_field. now rewrite H1, H2. Qed.
Lemma alike_fields names : forall fs xs ys, Forall2 alike xs ys -> ser_fields text_ok strict names fs xs = ser_fields text_ok strict names fs ys.
Proof.
  induction fs as [|f fs IH]; intros xs ys H; inversion H as [|x y xs' ys' H1 H2]; subst; cbn [ser_fields]; try reflexivity.
  rewrite (IH _ _ H2), (alike_field _ _ _ H1). destruct H1 as [-> _]. reflexivity.
Qed.
Lemma alike_elements : forall fs xs ys, Forall2 alike xs ys -> ser_elements text_ok strict fs xs = ser_elements text_ok strict fs ys.
Proof.
  induction fs as [|f fs IH]; intros xs ys H; inversion H as [|x y xs' ys' H1 H2]; subst; cbn [ser_elements]; try reflexivity.
  rewrite (IH _ _ H2), (alike_field _ _ _ H1). destruct H1 as [-> _]. reflexivity.
Qed.
Lemma alike_one f xs ys : Forall2 alike xs ys -> ser_one text_ok strict f xs = ser_one text_ok strict f ys.
Proof. intros H. inversion H as [|x y xs' ys' H1 H2]; subst; [reflexivity|]. inversion H2; subst; [|reflexivity]. cbn [ser_one]. now apply alike_field. Qed.
Lemma alike_untagged s xs ys : Forall2 alike xs ys -> ser_untagged text_ok strict s xs = ser_untagged text_ok strict s ys.
Proof.
  intros H. unfold ser_untagged. destruct (effective_style s); [reflexivity|now apply alike_one| |].
  - now rewrite (alike_elements _ _ _ H).
  - now rewrite (alike_fields _ _ _ _ H).
Qed.
Lemma alike_variant tg v xs ys : Forall2 alike xs ys -> ser_variant text_ok strict tg v xs = ser_variant text_ok strict tg v ys.
Proof.
  intros H. unfold ser_variant. destruct (v_skip_ser v); [reflexivity|]. rewrite (alike_untagged _ _ _ H).
  destruct (v_untagged v); [reflexivity|]. cbv zeta. destruct tg; [| |destruct (effective_style (v_style v))|];
    try destruct (effective_style (v_style v)); rewrite ?(alike_one _ _ _ H), ?(alike_elements _ _ _ H), ?(alike_fields _ _ _ _ H); reflexivity.
Qed.
Lemma titled_variant_ser tg v xs : ser_variant text_ok strict tg (titled_variant c tg v) xs = ser_variant text_ok strict tg v xs.
Proof. tv tg v. unfold ser_variant. now rewrite TV1, TV3, TV5, TV6. Qed.
Lemma alike_data name v : forall d xs ys, Forall2 alike xs ys -> ser_data text_ok strict name (titled_data c d) v xs = ser_data text_ok strict name d v ys.
Proof.
  induction d as [def s|tg vs|zs|from into own IH]; intros xs ys H; cbn [titled_data ser_data].
  - destruct v; try reflexivity. destruct s; cbn [ser_struct].
    + inversion H; reflexivity.
    + now rewrite (alike_one _ _ _ H).
    + now rewrite (alike_elements _ _ _ H).
    + now rewrite (alike_fields _ _ _ _ H).
  - destruct v; try reflexivity. rewrite nth_error_map. destruct (nth_error vs i); [|reflexivity]. cbn [option_map].
    rewrite titled_variant_ser. now apply alike_variant.
  - reflexivity.
  - destruct into as [t|]; [|now apply IH]. destruct v; try reflexivity.
    inversion H as [|x y xs' ys' H1 H2]; subst; [reflexivity|]. inversion H2; subst; [apply H1|reflexivity].
Qed.
Lemma alike_tuple : forall ts xs ys, Forall2 alike xs ys -> ser_tuple ts xs = ser_tuple ts ys.
Proof.
  induction ts as [|t ts IH]; intros xs ys H; inversion H as [|x y xs' ys' H1 H2]; subst; cbn [ser_tuple]; try reflexivity.
  destruct H1 as [_ ->]. change ((fix go (ts0 : list rty) (xs0 : list part) {struct ts0} := _) ts xs') with (ser_tuple ts xs').
  change ((fix go (ts0 : list rty) (xs0 : list part) {struct ts0} := _) ts ys') with (ser_tuple ts ys'). now rewrite (IH _ _ H2).
Qed.
Lemma omap_same {A B} (f g : A -> option B) l : (forall x, In x l -> f x = g x) -> omap f l = omap g l.
Proof.
  induction l as [|x l IH]; intros H; cbn [omap]; [reflexivity|]. rewrite (H x (or_introl eq_refl)). rewrite IH; [reflexivity|].
  intros y Hy. apply H. now right.
Qed.
Lemma titled_ser : forall n v, rsize v < n -> forall t, ser' v t = ser_ v t.
Proof.
  induction n as [|n IH]; intros v Hn; [lia|].
  assert (HS : forall l t, (forall x, In x l -> rsize x < rsize v) -> omap (fun x => ser' x t) l = omap (fun x => ser_ x t) l).
  { intros l t HL. apply omap_same. intros x Hx. apply IH. specialize (HL x Hx). lia. }
  assert (HP : forall l, (forall x, In x l -> rsize x < rsize v) -> Forall2 alike (map (fun x => (x, ser' x)) l) (map (fun x => (x, ser_ x)) l)).
  { induction l as [|x l IHl]; intros HL; [constructor|]. constructor; [|apply IHl; intros y Hy; apply HL; now right].
    split; [reflexivity|]. cbn [snd]. apply IH. specialize (HL x (or_introl eq_refl)). lia. }
  assert (HSq : forall l, v = RSeq l -> forall x, In x l -> rsize x < rsize v) by (intros l -> x Hx; now apply size_seq).
  assert (HVr : forall i l, v = RVariant i l -> forall x, In x l -> rsize x < rsize v) by (intros i l -> x Hx; now apply size_variant).
  assert (HMp : forall k t l, v = RMap l ->
    omap (fun kv : rval * rval => let (a, b) := kv in match ser' a k with Some x => match ser' b t with Some y => Some (x, y) | None => None end | None => None end) l
    = omap (fun kv : rval * rval => let (a, b) := kv in match ser_ a k with Some x => match ser_ b t with Some y => Some (x, y) | None => None end | None => None end) l).
  { intros k t l ->. apply omap_same. intros [a b] Hab. destruct (size_map _ _ _ Hab). rewrite !IH by lia. reflexivity. }
  assert (HVX : forall x, match v with RSeq l | RVariant _ l => In x l | _ => False end -> rsize x < rsize v).
  { intros x. destruct v; try (intros []); [apply HSq|eapply HVr]; reflexivity. }
  assert (HSm : forall x t, v = RSome x -> ser' x t = ser_ x t) by (intros x t ->; apply IH; cbn [rsize] in Hn; lia).
  induction t; try (destruct v; reflexivity); destruct v; try reflexivity; cbn [ser] in *;
    first [ now rewrite ?IHt | now rewrite (HSm _ _ eq_refl) | now rewrite (HS _ _ (HSq _ eq_refl))
          | now rewrite (alike_tuple _ _ _ (HP _ (HSq _ eq_refl))) | now rewrite (HMp _ _ _ eq_refl)
          | now apply alike_data, HP, HSq | now eapply alike_data, HP, HVr | idtac ].
  all: pose proof (fun x H => IH x (Nat.lt_le_trans _ _ _ (HVX x H) (le_S_n _ _ Hn))) as HX.
  all: repeat match goal with |- context [match ?i with 0 => _ | S _ => _ end] => destruct i end; try reflexivity.
  all: repeat match goal with |- context [match ?l with [] => _ | _ :: _ => _ end] => is_var l; destruct l end; try reflexivity.
  all: rewrite ?HX by (cbn; auto); reflexivity.
Qed.
Theorem titled_value t v : value_json (titled c items) text_ok strict t v = value_json items text_ok strict t v.
Proof. unfold value_json. now rewrite (titled_ser (S (rsize v)) v (le_n _) t). Qed.
End Values.

(** ** Types *)
Section Kinds.
Variable items : nat -> item rval.
Notation items' := (titled c items).

Lemma titled_types {X} : forall d : data X, data_types (titled_data c d) = data_types d.
Proof.
  induction d as [def s|tg vs|zs|from into own IH]; cbn [titled_data data_types]; try reflexivity; [|now rewrite IH].
  f_equal. induction vs as [|v vs IH]; cbn [map flat_map]; [reflexivity|]. tv tg v. now rewrite TV6, IH.
Qed.
Lemma titled_asked : forall t, asked items' t = asked items t.
Proof. induction t; cbn [asked]; auto. cbn [titled it_decl titled_decl d_data]. now rewrite titled_types. Qed.
Lemma titled_reach t u : reach items' t u -> reach items t u.
Proof. induction 1 as [|u w H IH HI]; [constructor|]. rewrite titled_asked in HI. econstructor; eauto. Qed.
Lemma titled_inline : forall t, type_inline items' t = type_inline items t.
Proof. induction t; cbn [type_inline]; auto. Qed.
Lemma map_same {A B} (f g : A -> B) l : Forall (fun x => f x = g x) l -> map f l = map g l.
Proof. induction 1 as [|x l H _ IH]; cbn; [reflexivity|]. now rewrite H, IH. Qed.
Lemma titled_name : forall t, type_name items' t = type_name items t.
Proof.
  induction t using rty_ind'; cbn [type_name]; try congruence; try (destruct t; try contradiction; reflexivity); try (destruct n; congruence);
    try match goal with H : Forall _ _ |- _ => apply map_same in H; unfold adt_name; cbn [titled it_format it_name]; now rewrite H end.
  now rewrite IHt1, IHt2.
Qed.
Lemma titled_id : forall t, type_id items' t = type_id items t.
Proof.
  induction t using rty_ind'; cbn [type_id]; try congruence; try (destruct t; try contradiction; reflexivity); try (destruct n; congruence);
    try match goal with H : Forall _ _ |- _ => apply map_same in H; unfold adt_id; cbn [titled it_module it_name]; now rewrite H end.
  now rewrite ?IHt1, ?IHt2.
Qed.

(** ** Declarations *)
Lemma titled_struct i cs ts def s : d_data (it_decl (items' i) cs ts) = DStruct def s <-> d_data (it_decl (items i) cs ts) = DStruct def s.
Proof. cbn [titled it_decl titled_decl d_data]. destruct (d_data (it_decl (items i) cs ts)); cbn [titled_data]; split; congruence. Qed.
Lemma titled_enum i cs ts tg vs : d_data (it_decl (items i) cs ts) = DEnum tg vs -> d_data (it_decl (items' i) cs ts) = DEnum tg (map (titled_variant c tg) vs).
Proof. cbn [titled it_decl titled_decl d_data]. now intros ->. Qed.
Lemma titled_enum_inv i cs ts tg vs : d_data (it_decl (items' i) cs ts) = DEnum tg vs ->
  exists vs0, d_data (it_decl (items i) cs ts) = DEnum tg vs0 /\ vs = map (titled_variant c tg) vs0.
Proof. cbn [titled it_decl titled_decl d_data]. destruct (d_data (it_decl (items i) cs ts)) as [|tg' vs'| |]; cbn [titled_data]; try discriminate. intros [= -> <-]. eauto. Qed.

Scheme declares_mut := Induction for declares Sort Prop with field_declares_mut := Induction for field_declares Sort Prop.
Lemma titled_declares t k : declares items' t k -> declares items t k.
Proof.
  apply (declares_mut items' (fun t k _ => declares items t k) (fun f k _ => field_declares items f k)).
  - intros n cs ts def fs f k' HD Hf HS HF IH. apply titled_struct in HD. eapply DeclField; eauto.
  - intros n cs ts vs w HD Hw HS. apply titled_enum_inv in HD as (vs0 & HD & ->). apply in_map_iff in Hw as (v & <- & Hv). tv External v. rewrite TV1. eapply DeclVariant; eauto; congruence.
  - intros n cs ts tag vs HD. apply titled_enum_inv in HD as (vs0 & HD & ->). eapply DeclTag; eauto.
  - intros n cs ts tag vs w fs f k' HD Hw HS HY Hf HSf HF IH. apply titled_enum_inv in HD as (vs0 & HD & ->). apply in_map_iff in Hw as (v & <- & Hv). tv (Internal tag) v.
    eapply DeclVariantField; eauto; congruence.
  - intros n cs ts tag content vs k' HD Hk. apply titled_enum_inv in HD as (vs0 & HD & ->). eapply DeclAdjacent; eauto.
  - intros f HF. now constructor.
  - intros f k' HF HD IH. now constructor.
Qed.
Lemma titled_field_declares f k : field_declares items' f k -> field_declares items f k.
Proof. intros H. destruct H as [f HF|f k HF HD]; [now constructor|]. constructor; [exact HF|]. now apply titled_declares. Qed.
Lemma titled_enum_ty t : enum_ty items' t = enum_ty items t.
Proof.
  destruct t; try reflexivity. cbn [enum_ty titled it_decl titled_decl d_data].
  match goal with |- context [titled_data c ?d] => destruct d; reflexivity end.
Qed.
Lemma titled_open f : open_field items' f = open_field items f.
Proof. unfold open_field, enum_field. now rewrite titled_enum_ty. Qed.
Lemma titled_closed fs : closed_fields items fs -> closed_fields items' fs.
Proof. intros H f Hf. rewrite titled_open. now apply H. Qed.
Lemma titled_is_struct t : is_struct items t -> is_struct items' t.
Proof. intros (n & cs & ts & def & fs & -> & HD & HC). exists n, cs, ts, def, fs. split; [reflexivity|]. split; [now apply titled_struct|now apply titled_closed]. Qed.
Lemma titled_flat_enum t : is_flat_enum items t -> is_flat_enum items' t.
Proof.
  intros (n & cs & ts & tg & vs & -> & HD & H1 & H2 & H3). exists n, cs, ts, tg, vs. split; [reflexivity|].
  assert (HE : map (titled_variant c tg) vs = vs).
  { clear HD H3. induction vs as [|v vs IH]; [reflexivity|]. cbn [map]. rewrite IH by (intros w Hw; apply H2; now right).
    f_equal. unfold titled_variant, without_tag. rewrite (H2 v (or_introl eq_refl)). destruct tg; congruence. }
  split; [rewrite <- HE; now apply titled_enum|]. split; [exact H1|]. split; [exact H2|]. intros w Hw HS. specialize (H3 w Hw HS).
  destruct tg; auto. destruct (v_style w); auto. now apply titled_closed.
Qed.

Variable tok : string.
Hypothesis tok_title : tok <> "title".
Lemma titled_fields def fs : wf_fields items tok c def fs -> wf_fields items' tok c def fs.
Proof.
  intros [W1 W2 W3 W4 W5]. split; auto.
  - intros f Hf HS HF. destruct (W3 f Hf HS HF) as [H|[[H|H] HO]]; [now left| |]; right; (split; [|exact HO]); [left; now apply titled_is_struct|right; now apply titled_flat_enum].
  - clear -W5. induction W5 as [|f fs H HR IH]; constructor; auto. rewrite Forall_forall in *. intros g Hg S1 S2 k K1 K2.
    exact (H g Hg S1 S2 k (titled_field_declares _ _ K1) (titled_field_declares _ _ K2)).
Qed.
Lemma titled_style def deny s : wf_style items tok c def deny s -> wf_style items' tok c def deny s.
Proof. destruct s; cbn [wf_style]; auto. intros [H1 H2]. split; [now apply titled_fields|]. intros HD. now apply titled_closed, H2. Qed.
Lemma titled_internal tag s : internal_ok items tag s -> internal_ok items' tag s.
Proof.
  destruct s as [|f|fs|fs]; cbn [internal_ok]; auto.
  - intros (HV & i & cs & ts & def & fs & HU & HD & HC & HN). split; [exact HV|]. exists i, cs, ts, def, fs. split; [exact HU|].
    split; [now apply titled_struct|]. split; [now apply titled_closed|]. intros H. now apply HN, titled_declares.
  - intros [H1 H2]. split; [now apply titled_closed|]. intros f Hf HS H. now apply (H2 f Hf HS), titled_field_declares.
Qed.
Lemma title_meta x l : wf_meta tok l -> wf_meta tok (("title", x) :: l).
Proof.
  intros H k y [[= <- <-]|Hk]; [|now apply (H k y)]. split; [|congruence]. split; cbn; intuition discriminate.
Qed.
Lemma titled_wf_variant deny tg v : wf_variant items tok c deny tg v -> wf_variant items' tok c deny tg (titled_variant c tg v).
Proof.
  intros [W1 W2 W3 W4 W5]. tv tg v. split; rewrite ?TV1, ?TV2, ?TV5, ?TV6; auto.
  - unfold titled_variant. destruct (without_tag tg v); [now apply title_meta|exact W2].
  - now apply titled_style.
  - intros tag HT HU. now apply titled_internal, W5.
Qed.
Lemma titled_data_wf deny : forall d, wf_data items tok c deny d -> wf_data items' tok c deny (titled_data c d).
Proof.
  induction d as [def s|tg vs|zs|from into own IH]; cbn [titled_data wf_data]; auto.
  - apply titled_style.
  - intros [W1 W2 W3 W4 W5]. split; auto.
    + destruct vs; [congruence|discriminate].
    + intros w Hw. apply in_map_iff in Hw as (v & <- & Hv). tv tg v. rewrite TV3, TV4. now apply W2.
    + intros w Hw HS. apply in_map_iff in Hw as (v & <- & Hv). tv tg v. rewrite TV3 in HS. now apply titled_wf_variant, W3.
    + assert (HE : map v_ser (filter (fun v => negb (v_skip_ser v)) (map (titled_variant c tg) vs)) = map v_ser (filter (fun v => negb (v_skip_ser v)) vs)); [|now rewrite HE].
      clear. induction vs as [|v vs IH]; [reflexivity|]. cbn [map filter]. tv tg v. rewrite TV3. destruct (negb (v_skip_ser v)); cbn [map]; [now rewrite TV1, IH|exact IH].
  - intros [H1 H2]. split; auto.
Qed.
Lemma titled_wf_decl d : wf_decl items tok c d -> wf_decl items' tok c (titled_decl c d).
Proof. intros [W1 W2]. split; cbn [titled_decl d_meta d_deny d_data]; auto. now apply titled_data_wf. Qed.
End Kinds.
End Same.
