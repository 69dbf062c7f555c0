(** The schema the generator returns for a derived struct has the properties and the required
    properties that its declaration asks for. *)
From Coq Require Import String Ascii List ZArith Bool Lia.
From Verif Require Import Json JsonFacts Utf8 SchemaApi Transform Validate ValidateFacts ValidateKw Private PrivateProps
  ShapeFacts PrivateFlatten PrivateForFlatten Generate SerValue Types TypesShape Serde SerdeFacts Derivation SoundBase SoundStruct
  SoundTypes Sound Required.
Import ListNotations.
Open Scope string_scope.
Open Scope list_scope.

(** What is asked of the declaration of a struct: nothing attached to it is a keyword that affects
    validation, and fields are flattened only if they hold structs with named fields. *)
Record plain_struct {X} (items : nat -> item X) (c : contract) (d : decl X) (fs : list (field X)) : Prop := {
  pst_meta : plain_meta (d_meta d);
  pst_flat : forall f, In f fs -> takes_part c f -> f_flatten f = true ->
    exists i cs ts def fs', strip_option (f_ty f) = TAdt i cs ts /\ d_data (it_decl (items i) cs ts) = DStruct def (Struct fs') }.

(** The fields of [t], if it is a struct, and of the structs flattened into it *)
Definition flat_field {X} (items : nat -> item X) (c : contract) (t : rty) (f : field X) : Prop :=
  exists i cs ts def fs, within_flat items c t (TAdt i cs ts) /\ d_data (it_decl (items i) cs ts) = DStruct def (Struct fs) /\
    In f fs /\ takes_part c f.

Lemma flat_field_flat {X} (items : nat -> item X) c i cs ts def fs f g : d_data (it_decl (items i) cs ts) = DStruct def (Struct fs) ->
  In f fs -> takes_part c f -> f_flatten f = true -> flat_field items c (strip_option (f_ty f)) g -> flat_field items c (TAdt i cs ts) g.
Proof.
  intros HD Hf HT HF (i' & cs' & ts' & def' & fs' & H1 & H2 & H3 & H4). exists i', cs', ts', def', fs'. repeat split; auto.
  eapply within_trans; [|exact H1]. apply (WithinFlat items c _ i cs ts def fs f); auto. constructor.
Qed.
Lemma flat_field_self {X} (items : nat -> item X) c i cs ts def fs f : d_data (it_decl (items i) cs ts) = DStruct def (Struct fs) ->
  In f fs -> takes_part c f -> flat_field items c (TAdt i cs ts) f.
Proof. intros HD Hf HT. exists i, cs, ts, def, fs. repeat split; auto. constructor. Qed.

(** Flattening ends *)
Inductive grounded {X} (items : nat -> item X) (c : contract) : rty -> Prop :=
| Grounded n cs ts def fs : d_data (it_decl (items n) cs ts) = DStruct def (Struct fs) ->
    (forall f, In f fs -> takes_part c f -> f_flatten f = true -> grounded items c (strip_option (f_ty f))) ->
    grounded items c (TAdt n cs ts).

Section Derive.
Context {X St : Type}.
Variable items : nat -> item X.
Variable S : settings St.
Variable seen : map_t -> Prop.
Notation c := (s_contract S).
Variable F : rty -> Prop.
Hypothesis HFl : forall i cs ts def fs f, F (TAdt i cs ts) -> d_data (it_decl (items i) cs ts) = DStruct def (Struct fs) ->
  In f fs -> takes_part c f -> f_flatten f = true -> F (strip_option (f_ty f)).
Hypothesis HW : forall i cs ts def fs, F (TAdt i cs ts) -> d_data (it_decl (items i) cs ts) = DStruct def (Struct fs) ->
  plain_struct items c (it_decl (items i) cs ts) fs.

Definition well (u : rty) (s : json) : Prop := F u -> forall i cs ts def fs, u = TAdt i cs ts ->
  d_data (it_decl (items i) cs ts) = DStruct def (Struct fs) -> exists m, s = JObj m /\ rq items c def fs m /\ grounded items c u.

Variable A : rty -> json -> Prop.
Notation post_ := (post (St := St) S seen A well).

Lemma fields_post def (Q : json -> Prop) k : forall fs done m,
  (forall f, In f (done ++ fs) -> takes_part c f -> f_flatten f = true ->
    F (strip_option (f_ty f)) /\
    exists i cs ts def fs', strip_option (f_ty f) = TAdt i cs ts /\ d_data (it_decl (items i) cs ts) = DStruct def (Struct fs')) ->
  (forall f, In f done -> takes_part c f -> f_flatten f = true -> grounded items c (strip_option (f_ty f))) ->
  rq items c def done m ->
  (forall m', rq items c def (done ++ fs) m' ->
     (forall f, In f (done ++ fs) -> takes_part c f -> f_flatten f = true -> grounded items c (strip_option (f_ty f))) ->
     post_ Q (k (JObj m'))) ->
  post_ Q (struct_fields def c fs (JObj m) k).
Proof.
  induction fs as [|f fs IH]; intros done m W HG H HK; cbn [struct_fields].
  { rewrite app_nil_r in HK. now apply HK. }
  assert (EQ : done ++ f :: fs = (done ++ [f]) ++ fs) by now rewrite <- app_assoc.
  assert (HI : In f (done ++ f :: fs)) by (apply in_or_app; right; now left).
  assert (HG' : (takes_part c f -> f_flatten f = true -> grounded items c (strip_option (f_ty f))) ->
    forall g, In g (done ++ [f]) -> takes_part c g -> f_flatten g = true -> grounded items c (strip_option (f_ty g))).
  { intros Hf g Hg. apply in_app_iff in Hg as [Hg|[<-|[]]]; auto. }
  destruct (included (f_skip_de f) (f_skip_ser f) c) eqn:EI; cbn [negb].
  2:{ assert (HN : ~ takes_part c f) by (rewrite <- included_takes; congruence).
      apply IH with (done := done ++ [f]); rewrite <- ?EQ; auto; [apply HG'; tauto|now apply rq_skip]. }
  apply included_takes in EI. destruct (f_flatten f) eqn:EF.
  - cbn [Derivation.post]. intros d HD. destruct (W f HI EI EF) as (HFf & i & cs & ts & def' & fs' & HT & HDt).
    destruct (HD HFf i cs ts def' fs' HT HDt) as (dm & -> & HR & HGr).
    destruct (rq_flat items c def done m f i cs ts def' fs' dm H EI EF HT HDt HR) as (m' & -> & H').
    apply IH with (done := done ++ [f]); rewrite <- ?EQ; auto.
  - unfold field_schema. rewrite name_key.
    assert (HS : forall s, post_ Q (struct_fields def c fs
      (insert_object_property (JObj m) (key c f) (is_optional def c f) (insert_default def f (field_mutators f s))) k)).
    { intros s. destruct (rq_field items c def done m f s H EI EF) as (m' & -> & H').
      apply IH with (done := done ++ [f]); rewrite <- ?EQ; auto. apply HG'. congruence. }
    destruct (f_required f); cbn [Derivation.post]; auto.
Qed.

Lemma well_post u : post_ (well u) (body items u).
Proof.
  assert (HT : forall p : prog rty St, (forall i cs ts, u <> TAdt i cs ts) -> post_ (well u) p).
  { intros p HN. assert (HQ : forall s, well u s) by (intros s _ i cs ts def fs ->; now destruct (HN i cs ts)).
    induction p; cbn [Derivation.post]; auto. }
  destruct u as [| | | | | | | | | | | | | | | | | | | | | | | | | | | | | |n consts ts]; try (apply HT; congruence). clear HT. cbn [body Derivation.post]. unfold decl_prog.
  assert (HT : forall p : prog rty St, (forall def fs, d_data (it_decl (items n) consts ts) <> DStruct def (Struct fs)) ->
    post_ (well (TAdt n consts ts)) p).
  { intros p HN. assert (HQ : forall s, well (TAdt n consts ts) s).
    { intros s _ i cs ts' def fs HE HD. injection HE as <- <- <-. now destruct (HN def fs). }
    induction p; cbn [Derivation.post]; auto. }
  destruct (d_data (it_decl (items n) consts ts)) as [def [| |l|fs]| | |] eqn:ED; try (apply HT; congruence).
  cbn [data_prog style_prog]. unfold struct_prog.
  destruct (rq_start items c def (d_deny (it_decl (items n) consts ts))) as (m & -> & H).
  enough (HN : F (TAdt n consts ts) -> post_ (well (TAdt n consts ts))
    (struct_fields def c fs (JObj m) (fun s => Ret (insert_all (d_meta (it_decl (items n) consts ts)) s)))).
  { set (p := struct_fields _ _ _ _ _) in *. clearbody p. clear H HT. revert HN.
    enough (HQ : (F (TAdt n consts ts) -> post_ (well (TAdt n consts ts)) p) -> post_ (well (TAdt n consts ts)) p) by exact HQ.
    induction p; cbn [Derivation.post]; auto. intros HN HFn. exact (HN HFn HFn). }
  intros HU. destruct (HW _ _ _ _ _ HU ED) as [HM HF].
  apply fields_post with (done := []); auto; [|intros f []|].
  { cbn [app]. intros f Hf HTk HFf. split; [|now apply HF]. eapply HFl; eauto. }
  cbn [app]. intros m' H' HG. cbn [Derivation.post]. destruct (rq_meta items c def fs _ m' HM H') as (m2 & -> & H2).
  intros _ i' cs' ts' def' fs' HE HD. injection HE as <- <- <-. rewrite ED in HD. injection HD as <- <-.
  exists m2. split; [reflexivity|]. split; [exact H2|]. econstructor; eauto.
Qed.
End Derive.

(** The types that are asked for do not matter *)
Lemma derives_any {Ty St} (inf : Ty -> tyinfo Ty St) (R : Ty -> Prop) (S : settings St) ans seen t s :
  derives inf R S ans seen t s -> derives inf (fun _ => True) S ans seen t s.
Proof.
  intros D. refine (derives_mut inf R S ans seen (fun t s _ => derives inf (fun _ => True) S ans seen t s)
    (fun p s _ => runs inf (fun _ => True) S ans seen p s) _ _ _ _ _ _ _ t s D); intros;
    first [solve [econstructor; eauto]|solve [eapply RunInline; eauto]|solve [eapply RunCall; eauto]].
Qed.

Theorem derives_well {X St} (items : nat -> item X) (S : settings St) seen ans (R : rty -> Prop) t s :
  (forall i cs ts def fs, within_flat items (s_contract S) t (TAdt i cs ts) -> d_data (it_decl (items i) cs ts) = DStruct def (Struct fs) ->
     plain_struct items (s_contract S) (it_decl (items i) cs ts) fs) ->
  R t -> derives (info items) R S ans seen t s -> well items S (within_flat items (s_contract S) t) t s.
Proof.
  intros HW. apply derives_inv. intros u HR. cbn [info t_body]. apply well_post; [|exact HW].
  intros i cs ts def fs f. apply WithinFlat.
Qed.

Lemma needs_has {X} (items : nat -> item X) c must t : grounded items c t -> forall k, needs_key items c must t k -> has_key items c t k.
Proof.
  intros HG. induction HG as [n cs ts def fs HD HF IH]. intros k HN.
  inversion HN as [n0 cs0 ts0 def0 fs0 f k0 Z1 Z2 Z3 Z4]; subst. rewrite HD in Z1. injection Z1 as <- <-.
  econstructor; eauto. inversion Z4 as [d f0 HFl HM|d f0 k0 HFl HL HK]; subst; [now apply HasName|apply HasFlat; auto].
Qed.
