(** The "default" of the properties of a derived struct. *)
From Coq Require Import String Ascii List ZArith Bool Lia.
From Verif Require Import Json JsonFacts Utf8 SchemaApi Transform Validate ValidateFacts ValidateKw Private PrivateProps PrivateTag
  ShapeFacts PrivateFlatten PrivateForFlatten Generate SerValue Types TypesShape Serde SerdeFacts Derivation SoundBase SoundStruct
  SoundTypes Sound Required RequiredDerive RequiredSerde RequiredVariants.
Import ListNotations.
Open Scope string_scope.
Open Scope list_scope.

(** ** The default of a field *)
(** [_schemars_maybe_to_value!] and [MaybeSerializeWrapper]: _private/mod.rs:168-197; [serialize] tells
    whether the type of the field implements [Serialize]. *)
Definition maybe_to_value (items : nat -> item rval) (text_ok : checks) (serialize : bool) (t : rty) (v : rval) : option json :=
  if serialize then value_json items text_ok false t v else None.

(** schema_exprs.rs:766-818 [field_default_expr] for a field without [serialize_with]. [d] is the value of
    the default expression: [<T>::default()], the function of the attribute, or the member of the
    container's default. *)
Definition field_default_expr (container_default : bool) (f : field rval) (d : rval) : option rval :=
  if f_skip_ser f || (negb (f_default f) && negb container_default) then None
  else match f_skip_if f with
       | Some skip_if => if skip_if d then None else Some d
       | None => Some d
       end.

(** schema_exprs.rs:705-710: the value given to "default", if any *)
Definition default_json (items : nat -> item rval) (text_ok : checks) (serialize : bool) (container_default : bool) (f : field rval) (d : rval)
  : option json :=
  match field_default_expr container_default f d with
  | Some d => maybe_to_value items text_ok serialize (f_ty f) d
  | None => None
  end.

(** ** Specification *)
(** No later field of the struct has the property of [f]. *)
Definition unshadowed {X} (items : nat -> item X) (c : contract) (f : field X) (later : list (field X)) : Prop :=
  forall g, In g later -> takes_part c g -> ~ field_has items c g (key c f).

(** ** The property of a field *)
(** Forwarding types have the schema of the type they forward to. *)
Lemma derives_unwrap {X St} (items : nat -> item X) (S : settings St) seen ans (R : rty -> Prop) : forall t s,
  derives (info items) R S ans seen t s -> derives (info items) R S ans seen (unwrap t) s.
Proof.
  induction t; intros s H; try exact H; cbn [unwrap]; match goal with IH : forall s, _ -> _ |- _ => apply IH end;
    inversion H as [t0 s0 HRun]; subst; constructor; exact HRun.
Qed.

Theorem derives_default {X St} (items : nat -> item X) (S : settings St) seen ans (R : rty -> Prop) i cs ts def l1 f l2 s :
  (forall i' cs' ts' def fs, within_flat items (s_contract S) (TAdt i cs ts) (TAdt i' cs' ts') -> d_data (it_decl (items i') cs' ts') = DStruct def (Struct fs) ->
     plain_struct items (s_contract S) (it_decl (items i') cs' ts') fs) ->
  d_data (it_decl (items i) cs ts) = DStruct def (Struct (l1 ++ f :: l2)) ->
  takes_part (s_contract S) f -> f_flatten f = false -> unshadowed items (s_contract S) f l2 ->
  derives (info items) R S ans seen (TAdt i cs ts) s ->
  exists m sub, s = JObj m /\ mget (key (s_contract S) f) (props_of m) = Some (insert_default def f (field_mutators f sub)).
Proof.
  intros HW HD HT HF HN H. apply derives_any in H.
  destruct (derives_well items S _ _ _ (TAdt i cs ts) s HW I H (WithinSelf _ _ _) i cs ts def _ eq_refl HD) as (m & -> & HQ & _).
  destruct (rq_kept _ _ _ _ _ HQ l1 f l2 eq_refl HT HF HN) as (sub & HK). now exists m, sub.
Qed.

(** ** Values with the default *)
Lemma property_valid E m ps k sub o j : valid D2020 E (JObj m) (JObj o) = true -> mget "properties" m = Some (JObj ps) ->
  mget k ps = Some sub -> mget k o = Some j -> valid D2020 E sub j = true.
Proof.
  intros H Hm Hs Hj. rewrite valid_kw in H. specialize (H "properties" (JObj ps) Hm).
  unfold kw in H. cbn [String.eqb Ascii.eqb Bool.eqb existsb assertion_names orb] in H. rewrite chk_props_ok in H. cbn [props_ok] in H.
  rewrite forallb_forall in H. specialize (H (k, j) (mget_In _ _ _ Hj)). cbn [fst snd] in H. now rewrite Hs in H.
Qed.

Lemma mk_after {B} (l1 : list (string * B)) k x l2 : ~ In k (map fst l2) -> mget k (mk (l1 ++ (k, x) :: l2)) = Some x.
Proof.
  intros HN. unfold mk, mappend. rewrite fold_left_app. cbn [fold_left fst snd]. generalize (fold_left (fun m (kv : string * B) => mset (fst kv) (snd kv) m) l1 []).
  intros m0. assert (H0 : mget k (mset k x m0) = Some x) by (rewrite mget_mset, String.eqb_refl; reflexivity). revert H0. generalize (mset k x m0).
  induction l2 as [|[k' y] l2 IH]; intros m H0; [exact H0|]. cbn [fold_left fst snd]. apply IH; [intros HI; apply HN; now right|].
  rewrite mget_mset. destruct (String.eqb_spec k k') as [->|]; [|exact H0]. elim HN. now left.
Qed.

Section Values.
Variable items : nat -> item rval.
Variable text_ok : checks.
Notation ser_fields := (Serde.ser_fields text_ok).
Notation ser_field := (Serde.ser_field text_ok).
Notation c := Serialize.
Notation ser_ := (ser items text_ok true).
Notation parts := (SoundStruct.parts items text_ok).

Lemma fields_named ns k : forall fs l es,
  (forall f x v sv e, In f fs -> In x l -> rsize v <= rsize x -> f_skip_ser f = false -> f_flatten f = true ->
    ser_ v (strip_option (f_ty f)) = Some sv -> flat_entries sv = Some e ->
    In k (map fst e) -> has_key items c (strip_option (f_ty f)) k) ->
  ser_fields true ns fs (parts l) = Some es -> In k (map fst es) -> exists f, In f fs /\ takes_part c f /\ field_has items c f k.
Proof.
  induction fs as [|f fs IHf]; intros l es IH HE HI; [destruct l; [|discriminate]; injection HE as <-; destruct HI|].
  destruct l as [|x l]; [discriminate|]. cbn [SoundStruct.parts map Serde.ser_fields fst] in HE. fold (parts l) in HE.
  destruct (ser_fields true ns fs (parts l)) as [rest|] eqn:ER; [|discriminate].
  assert (HR : In k (map fst rest) -> exists g, In g (f :: fs) /\ takes_part c g /\ field_has items c g k).
  { intros Hk. destruct (IHf l rest) as (g & H1 & H2 & H3); auto; [intros g y v sv e Hg Hy; apply (IH g y); now right|]. exists g. split; [now right|now split]. }
  destruct (f_skip_ser f) eqn:ES; [injection HE as <-; auto|]. cbn [orb] in HE. destruct (skip_now f x); [injection HE as <-; auto|].
  destruct (ser_field true f (x, ser_ x)) as [w|] eqn:EW; [|discriminate]. destruct (f_flatten f) eqn:EF.
  - destruct (flat_entries w) as [e|] eqn:EE; [|discriminate]. destruct (clashes _ _ _ _); [discriminate|]. injection HE as <-.
    rewrite map_app, in_app_iff in HI. destruct HI as [HI|HI]; [|auto]. exists f. split; [now left|]. split; [exact ES|]. apply HasFlat; [exact EF|].
    rewrite SerdeFacts.flat_field in EW by assumption. cbn [fst snd] in EW. destruct (f_required f && negb (present (f_ty f) x)); [discriminate|].
    destruct (present (f_ty f) x) eqn:EP.
    + destruct (present_strip _ _ _ _ _ EP EW) as (v' & sv' & Q1 & Q2 & _ & Q4). apply (IH f x v' sv' e); auto; [now left|now left|congruence].
    + destruct (absent_flat _ _ _ _ _ EP EW) as [_ HO]. assert (e = []) by congruence. subst e. destruct HI.
  - injection HE as <-. cbn [map fst] in HI. destruct HI as [<-|HI]; [|auto]. exists f. split; [now left|]. split; [exact ES|].
    change (f_ser f) with (key c f). now constructor.
Qed.

(** The keys that the serialization of a flattened struct writes *)
Lemma written_has t0 : (forall i cs ts def fs, within_flat items c t0 (TAdt i cs ts) -> d_data (it_decl (items i) cs ts) = DStruct def (Struct fs) ->
    plain_struct items c (it_decl (items i) cs ts) fs) ->
  forall n i cs ts def fs v sv es k, rsize v < n -> within_flat items c t0 (TAdt i cs ts) -> d_data (it_decl (items i) cs ts) = DStruct def (Struct fs) ->
  ser_ v (TAdt i cs ts) = Some sv -> flat_entries sv = Some es -> In k (map fst es) -> has_key items c (TAdt i cs ts) k.
Proof.
  intros HP. induction n as [|n IHn]; intros i cs ts def fs v sv es k Hn HW HD HS HE HI; [lia|].
  destruct (struct_entries _ _ _ _ _ _ _ _ _ HD HS) as (l & es' & -> & HE' & ->). rewrite flat_struct_value in HE. injection HE as ->.
  destruct (fields_named (own_names fs) k fs l es) with (2 := HE') as (f & H1 & H2 & H3); auto.
  - intros f x v sv e Hf Hx Hv HSk HFl HV He Hk. destruct (pst_flat _ _ _ _ (HP _ _ _ _ _ HW HD) f Hf HSk HFl) as (i' & cs' & ts' & def' & fs' & HT & HD').
    rewrite HT in *. apply (IHn i' cs' ts' def' fs' v sv e k); auto.
    + apply size_seq in Hx. lia.
    + rewrite <- HT. eapply WithinFlat; eauto.
  - econstructor; eauto.
Qed.

(** The entries that later fields write *)
Lemma later_has t0 ns i cs ts def l1 f l2 b eb k : t0 = TAdt i cs ts -> d_data (it_decl (items i) cs ts) = DStruct def (Struct (l1 ++ f :: l2)) ->
  (forall i cs ts def fs, within_flat items c t0 (TAdt i cs ts) -> d_data (it_decl (items i) cs ts) = DStruct def (Struct fs) ->
    plain_struct items c (it_decl (items i) cs ts) fs) ->
  ser_fields true ns l2 (parts b) = Some eb -> In k (map fst eb) -> exists g, In g l2 /\ takes_part c g /\ field_has items c g k.
Proof.
  intros -> HD HP HE HI. apply (fields_named ns k l2 b eb) in HE; auto. intros g x v sv e Hg Hx Hv HSk HFl HV He Hk.
  assert (Hg' : In g (l1 ++ f :: l2)) by (apply in_or_app; right; now right).
  destruct (pst_flat _ _ _ _ (HP i cs ts def (l1 ++ f :: l2) (WithinSelf _ _ _) HD) g Hg' HSk HFl) as (i' & cs' & ts' & def' & fs' & HT & HD').
  rewrite HT in *. apply (written_has _ HP (S (rsize v)) i' cs' ts' def' fs' v sv e k); auto.
  rewrite <- HT. exact (WithinFlat items c (TAdt i cs ts) i cs ts def (l1 ++ f :: l2) g (WithinSelf _ _ _) HD Hg' HSk HFl).
Qed.

Lemma replaced ns f l2 : f_skip_ser f = false -> f_flatten f = false -> forall l1 l es,
  ser_fields true ns (l1 ++ f :: l2) (parts l) = Some es ->
  exists a x b ea e eb, l = a ++ x :: b /\ List.length a = List.length l1 /\ ser_fields true ns l2 (parts b) = Some eb /\ es = ea ++ e ++ eb /\
    forall d w, ser_field true f (d, ser_ d) = Some w -> skip_now f d = false ->
      ser_fields true ns (l1 ++ f :: l2) (parts (a ++ d :: b)) = Some (ea ++ (f_ser f, w) :: eb).
Proof.
  intros HS HF. induction l1 as [|g l1 IH]; intros l es HE; (destruct l as [|x l]; [discriminate|]); cbn [app] in *;
    cbn [SoundStruct.parts map Serde.ser_fields fst] in HE; fold (parts l) in HE.
  - destruct (ser_fields true ns l2 (parts l)) as [rest|] eqn:ER; [|discriminate].
    rewrite HS, HF in HE. cbn [orb] in HE. exists [], x, l, [], (if skip_now f x then [] else match ser_field true f (x, ser_ x) with Some w => [(f_ser f, w)] | None => [] end), rest.
    split; [reflexivity|]. split; [reflexivity|]. split; [exact ER|]. split.
    + destruct (skip_now f x); [now injection HE as <-|]. destruct (ser_field true f (x, ser_ x)); [|discriminate]. now injection HE as <-.
    + intros d w Hw Hd. cbn [app SoundStruct.parts map Serde.ser_fields fst]. fold (parts l). rewrite ER, HS, Hd. cbn [orb]. now rewrite Hw, HF.
  - destruct (ser_fields true ns (l1 ++ f :: l2) (parts l)) as [rest|] eqn:ER; [|discriminate].
    destruct (IH l rest ER) as (a & y & b & ea & e & eb & -> & HL & Hb & -> & HR).
    assert (HX : exists e0, es = e0 ++ ea ++ e ++ eb /\ forall es', 
      (if f_skip_ser g || skip_now g x then Some es'
          else match ser_field true g (x, ser_ x) with
               | None => None
               | Some v => if f_flatten g then match flat_entries v with Some es => if clashes true ns g es then None else Some (es ++ es') | None => None end
                   else Some ((f_ser g, v) :: es') end) = Some (e0 ++ es')).
    { destruct (f_skip_ser g || skip_now g x); [injection HE as <-; now exists []|].
      destruct (ser_field true g (x, ser_ x)) as [v|]; [|discriminate]. destruct (f_flatten g).
      - destruct (flat_entries v) as [e0|]; [|discriminate]. destruct (clashes true ns g e0); [discriminate|]. injection HE as <-. now exists e0.
      - injection HE as <-. now exists [(f_ser g, v)]. }
    destruct HX as (e0 & -> & HX). exists (x :: a), y, b, (e0 ++ ea), e, eb. split; [reflexivity|]. split; [cbn; now rewrite HL|]. split; [exact Hb|].
    split; [now rewrite <- app_assoc|]. intros d w Hw Hd. cbn [app SoundStruct.parts map Serde.ser_fields fst]. fold (parts (a ++ d :: b)).
    rewrite (HR d w Hw Hd), HX. now rewrite <- app_assoc.
Qed.
(** A value of the struct with [d] in the place of [f] *)
Lemma with_default i cs ts def l1 f l2 v j0 d w j : d_data (it_decl (items i) cs ts) = DStruct def (Struct (l1 ++ f :: l2)) ->
  (forall i' cs' ts' def fs, within_flat items c (TAdt i cs ts) (TAdt i' cs' ts') -> d_data (it_decl (items i') cs' ts') = DStruct def (Struct fs) ->
    plain_struct items c (it_decl (items i') cs' ts') fs) ->
  f_skip_ser f = false -> f_flatten f = false -> unshadowed items c f l2 ->
  value_json items text_ok true (TAdt i cs ts) v = Some j0 ->
  ser_field true f (d, ser_ d) = Some w -> to_json w = Some j -> skip_now f d = false ->
  exists v' o, value_json items text_ok true (TAdt i cs ts) v' = Some (JObj o) /\ mget (f_ser f) o = Some j.
Proof.
  intros HD HP HS HF HU HV HW HJ HN. unfold value_json in HV. destruct (ser_ v (TAdt i cs ts)) as [sv|] eqn:ES; [|discriminate].
  destruct (struct_entries _ _ _ _ _ _ _ _ _ HD ES) as (l & es & -> & HE & ->). rewrite to_json_struct_value in HV.
  destruct (omap _ es) as [js|] eqn:EO; [|discriminate].
  destruct (replaced _ f l2 HS HF l1 l es HE) as (a & x & b & ea & e & eb & -> & _ & Hb & -> & HR). specialize (HR d w HW HN).
  apply omap_printable in EO as [HPr _].
  destruct (printable_omap ea) as (ja & EA & _); [intros y Hy; apply HPr, in_or_app; now left|].
  destruct (printable_omap eb) as (jb & EB & KB); [intros y Hy; apply HPr, in_or_app; right; apply in_or_app; now right|].
  exists (RSeq (a ++ d :: b)), (mk (ja ++ (f_ser f, j) :: jb)). split.
  - unfold value_json. assert (HX : ser_ (RSeq (a ++ d :: b)) (TAdt i cs ts) = Some (struct_value (it_name (items i)) (l1 ++ f :: l2) (ea ++ (f_ser f, w) :: eb))).
    { cbn [ser]. unfold ser_decl. rewrite HD. cbn [ser_data Serde.ser_struct]. change (map _ (a ++ d :: b)) with (parts (a ++ d :: b)). now rewrite HR. }
    rewrite HX, to_json_struct_value, omap_app. cbn [omap]. rewrite EA, EB, HJ. reflexivity.
  - apply mk_after. rewrite KB. intros HI. destruct (later_has _ _ i cs ts def l1 f l2 b eb _ eq_refl HD HP Hb HI) as (g & G1 & G2 & G3).
    now apply (HU g).
Qed.
End Values.
