(** Facts about the validation semantics: it depends only on keyword lookups, and equivalent
    subschemas can be exchanged. *)
From Coq Require Import String Ascii List ZArith NArith Bool Lia.
From Verif Require Import Json JsonFacts Utf8 Validate.
Import ListNotations.
Open Scope string_scope.

(** Same verdict, same evaluated properties. *)
Definition req (a b : result) : Prop := ok a = ok b /\ forall k, ev a k = ev b k.
Definition feq (f g : json -> result) : Prop := forall v, req (f v) (g v).

Inductive orel {A} (R : A -> A -> Prop) : option A -> option A -> Prop :=
| orel_none : orel R None None
| orel_some a b : R a b -> orel R (Some a) (Some b).

Definition feq_kv (p q : string * (json -> result)) : Prop := fst p = fst q /\ feq (snd p) (snd q).

(** Two interpretations of a keyword's value that agree as a schema / list / map of schemas. *)
Definition den_eq (o o' : option sub) : Prop := orel (fun a b => feq (s_den a) (s_den b)) o o'.
Definition arr_eq (o o' : option sub) : Prop := orel (Forall2 feq) (arr_of o) (arr_of o').
Definition obj_eq (o o' : option sub) : Prop := orel (Forall2 feq_kv) (obj_of o) (obj_of o').

Lemma req_refl a : req a a.
Proof. split; auto. Qed.
Lemma req_sym a b : req a b -> req b a.
Proof. intros [H1 H2]; split; auto. Qed.
Lemma req_trans a b c : req a b -> req b c -> req a c.
Proof. intros [H1 H2] [H3 H4]; split; [congruence|]. intros k; rewrite H2; auto. Qed.
Lemma feq_refl f : feq f f.
Proof. intros v; apply req_refl. Qed.
Lemma feq_sym f g : feq f g -> feq g f.
Proof. intros H v; apply req_sym, H. Qed.
Lemma feq_trans f g h : feq f g -> feq g h -> feq f h.
Proof. intros H1 H2 v; eapply req_trans; [apply H1|apply H2]. Qed.

Lemma orel_refl {A} (R : A -> A -> Prop) o : (forall a, R a a) -> orel R o o.
Proof. destruct o; constructor; auto. Qed.
Lemma Forall2_refl {A} (R : A -> A -> Prop) l : (forall a, R a a) -> Forall2 R l l.
Proof. induction l; constructor; auto. Qed.
Lemma feq_kv_refl p : feq_kv p p.
Proof. split; [reflexivity|apply feq_refl]. Qed.
Lemma den_eq_refl o : den_eq o o.
Proof. apply orel_refl; intros; apply feq_refl. Qed.
Lemma arr_eq_refl o : arr_eq o o.
Proof. apply orel_refl; intros; apply Forall2_refl, feq_refl. Qed.
Lemma obj_eq_refl o : obj_eq o o.
Proof. apply orel_refl; intros; apply Forall2_refl, feq_kv_refl. Qed.
#[export] Hint Resolve req_refl feq_refl den_eq_refl arr_eq_refl obj_eq_refl : core.

Lemma feq_ok f g v : feq f g -> ok (f v) = ok (g v).
Proof. intros H; apply H. Qed.
Lemma feq_evs f g v k : feq f g -> evs (f v) k = evs (g v) k.
Proof. intros H; unfold evs. destruct (H v) as [-> H2]. now rewrite H2. Qed.

Lemma forallb_F2 {A} (R : A -> A -> Prop) (p q : A -> bool) l l' :
  Forall2 R l l' -> (forall a b, R a b -> p a = q b) -> forallb p l = forallb q l'.
Proof. intros HF H; induction HF as [|a b l l' Hab _ IH]; cbn; [auto|]. now rewrite (H _ _ Hab), IH. Qed.
Lemma existsb_F2 {A} (R : A -> A -> Prop) (p q : A -> bool) l l' :
  Forall2 R l l' -> (forall a b, R a b -> p a = q b) -> existsb p l = existsb q l'.
Proof. intros HF H; induction HF as [|a b l l' Hab _ IH]; cbn; [auto|]. now rewrite (H _ _ Hab), IH. Qed.
Lemma filter_len_F2 {A} (R : A -> A -> Prop) (p q : A -> bool) l l' :
  Forall2 R l l' -> (forall a b, R a b -> p a = q b) ->
  List.length (filter p l) = List.length (filter q l').
Proof.
  intros HF H; induction HF as [|a b l l' Hab _ IH]; cbn; [auto|].
  rewrite (H _ _ Hab). destruct (q b); cbn; now rewrite IH.
Qed.
Lemma forallb_eq {A} (p q : A -> bool) l : (forall a, In a l -> p a = q a) -> forallb p l = forallb q l.
Proof. induction l as [|a l IH]; cbn; intros H; [auto|]. rewrite H, IH; auto. Qed.
Lemma existsb_eq {A} (p q : A -> bool) l : (forall a, In a l -> p a = q a) -> existsb p l = existsb q l.
Proof. induction l as [|a l IH]; cbn; intros H; [auto|]. rewrite H, IH; auto. Qed.

Lemma F2_length {A} (R : A -> A -> Prop) l l' : Forall2 R l l' -> List.length l = List.length l'.
Proof. induction 1; cbn; auto. Qed.

Section Congr.
Variables (E : env) (v : json).

Lemma chk_all_eq o o' : arr_eq o o' -> chk_all o v = chk_all o' v.
Proof.
  intros H; unfold chk_all. destruct H as [|l l' HF]; [auto|].
  eapply forallb_F2; [exact HF|]. intros; now apply feq_ok.
Qed.
Lemma chk_any_eq o o' : arr_eq o o' -> chk_any o v = chk_any o' v.
Proof.
  intros H; unfold chk_any. destruct H as [|l l' HF]; [auto|].
  eapply existsb_F2; [exact HF|]. intros; now apply feq_ok.
Qed.
Lemma chk_one_eq o o' : arr_eq o o' -> chk_one o v = chk_one o' v.
Proof.
  intros H; unfold chk_one, count_ok. destruct H as [|l l' HF]; [auto|].
  erewrite filter_len_F2; [reflexivity|exact HF|]. intros; now apply feq_ok.
Qed.
Lemma chk_not_eq o o' : den_eq o o' -> chk_not o v = chk_not o' v.
Proof. intros [|a b H]; cbn; [auto|]. now rewrite (feq_ok _ _ v H). Qed.
Lemma chk_opt_eq o o' : den_eq o o' -> chk_opt o v = chk_opt o' v.
Proof. intros [|a b H]; cbn; [auto|]. now rewrite (feq_ok _ _ v H). Qed.
Lemma ev_opt_eq o o' k : den_eq o o' -> ev_opt o v k = ev_opt o' v k.
Proof. intros [|a b H]; cbn; [auto|]. now rewrite (feq_evs _ _ v k H). Qed.
Lemma chk_if_eq i i' t t' e e' : den_eq i i' -> den_eq t t' -> den_eq e e' ->
  chk_if i t e v = chk_if i' t' e' v.
Proof.
  intros [|a b H] Ht He; cbn; [auto|].
  now rewrite (feq_ok _ _ v H), (chk_opt_eq _ _ Ht), (chk_opt_eq _ _ He).
Qed.
Lemma ev_if_eq i i' t t' e e' k : den_eq i i' -> den_eq t t' -> den_eq e e' ->
  ev_if i t e v k = ev_if i' t' e' v k.
Proof.
  intros [|a b H] Ht He; cbn; [auto|].
  now rewrite (feq_ok _ _ v H), (feq_evs _ _ v k H), (ev_opt_eq _ _ k Ht), (ev_opt_eq _ _ k He).
Qed.
Lemma ev_list_eq o o' k : arr_eq o o' -> ev_list o v k = ev_list o' v k.
Proof.
  intros H; unfold ev_list. destruct H as [|l l' HF]; [auto|].
  eapply existsb_F2; [exact HF|]. intros; now apply feq_evs.
Qed.
Lemma zip_ok_eq fs fs' l : Forall2 feq fs fs' -> zip_ok fs l = zip_ok fs' l.
Proof.
  intros HF; revert l; induction HF as [|f g fs fs' H _ IH]; intros [|x l]; cbn; auto.
  now rewrite (feq_ok _ _ x H), IH.
Qed.
Lemma all_ok_eq a b l : feq (s_den a) (s_den b) -> all_ok a l = all_ok b l.
Proof. intros H. apply forallb_eq; intros; now apply feq_ok. Qed.

Lemma chk_items_eq d p p' i i' a a' : arr_eq p p' -> den_eq i i' -> arr_eq i i' -> den_eq a a' ->
  chk_items d p i a v = chk_items d p' i' a' v.
Proof.
  intros Hp Hi Hi2 Ha; destruct v; cbn [chk_items]; auto. destruct (d_items d).
  - assert (Hz : Forall2 feq (match arr_of p with Some fs => fs | None => [] end)
                   (match arr_of p' with Some fs => fs | None => [] end)).
    { destruct Hp; [constructor|auto]. }
    rewrite (zip_ok_eq _ _ _ Hz), (F2_length _ _ _ Hz). f_equal.
    destruct Hi as [|x y Hxy]; [auto|]. now apply all_ok_eq.
  - destruct Hi as [|x y Hxy]; [auto|]. unfold arr_eq in Hi2; cbn in Hi2.
    destruct Hi2 as [|fs fs' HF]; [now apply all_ok_eq|].
    rewrite (zip_ok_eq _ _ _ HF), (F2_length _ _ _ HF). f_equal.
    destruct Ha as [|x' y' Hxy']; [auto|]. now apply all_ok_eq.
  - destruct Hi as [|x y Hxy]; [auto|]. now apply all_ok_eq.
Qed.

Lemma when_den b o o' : den_eq o o' -> den_eq (when b o) (when b o').
Proof. destruct b; auto; constructor. Qed.
Lemma when_obj b o o' : obj_eq o o' -> obj_eq (when b o) (when b o').
Proof. destruct b; auto; constructor. Qed.
Lemma chk_contains_eq o o' : den_eq o o' -> chk_contains o v = chk_contains o' v.
Proof.
  intros [|a b H]; destruct v; cbn; auto. apply existsb_eq; intros; now apply feq_ok.
Qed.
Lemma F2kv_mget k fs fs' : Forall2 feq_kv fs fs' -> orel feq (mget k fs) (mget k fs').
Proof.
  induction 1 as [|[a f] [b g] l l' [H1 H2] _ IH]; cbn; [constructor|]. cbn in H1, H2; subst.
  destruct (String.eqb k b); [now constructor|exact IH].
Qed.
Lemma in_props_eq o o' k : obj_eq o o' -> in_props o k = in_props o' k.
Proof.
  intros H; unfold in_props. destruct H as [|l l' HF]; [auto|].
  unfold mhas. destruct (F2kv_mget k _ _ HF); auto.
Qed.
Lemma in_patterns_eq o o' k : obj_eq o o' -> in_patterns E o k = in_patterns E o' k.
Proof.
  intros H; unfold in_patterns. destruct H as [|l l' HF]; [auto|].
  eapply existsb_F2; [exact HF|]. intros a b [-> _]; auto.
Qed.
Lemma chk_props_eq o o' : obj_eq o o' -> chk_props o v = chk_props o' v.
Proof.
  intros H; unfold chk_props. destruct v; auto. destruct H as [|l l' HF]; [auto|].
  apply forallb_eq; intros [k x] _; cbn.
  destruct (F2kv_mget k _ _ HF) as [|f g Hfg]; [auto|]. now apply feq_ok.
Qed.
Lemma chk_patterns_eq o o' : obj_eq o o' -> chk_patterns E o v = chk_patterns E o' v.
Proof.
  intros H; unfold chk_patterns. destruct v; auto. destruct H as [|l l' HF]; [auto|].
  apply forallb_eq; intros [k x] _; cbn [fst snd].
  eapply forallb_F2; [exact HF|]. intros a b [-> H2]. now rewrite (feq_ok _ _ x H2).
Qed.
Lemma chk_additional_eq o o' q q' a a' : obj_eq o o' -> obj_eq q q' -> den_eq a a' ->
  chk_additional E o q a v = chk_additional E o' q' a' v.
Proof.
  intros Ho Hq [|x y H]; destruct v; cbn; auto.
  apply forallb_eq; intros [k j] _; cbn.
  now rewrite (in_props_eq _ _ k Ho), (in_patterns_eq _ _ k Hq), (feq_ok _ _ j H).
Qed.
Lemma chk_names_eq o o' : den_eq o o' -> chk_names o v = chk_names o' v.
Proof.
  intros [|x y H]; destruct v; cbn; auto. apply forallb_eq; intros; now apply feq_ok.
Qed.
Lemma chk_dependent_eq o o' : obj_eq o o' -> chk_dependent o v = chk_dependent o' v.
Proof.
  intros H; unfold chk_dependent. destruct v; auto. destruct H as [|l l' HF]; [auto|].
  eapply forallb_F2; [exact HF|]. intros a b [-> H2]. now rewrite (feq_ok _ _ _ H2).
Qed.
Lemma ev_dependent_eq o o' k : obj_eq o o' -> ev_dependent o v k = ev_dependent o' v k.
Proof.
  intros H; unfold ev_dependent. destruct v; auto. destruct H as [|l l' HF]; [auto|].
  eapply existsb_F2; [exact HF|]. intros a b [-> H2]. now rewrite (feq_evs _ _ _ k H2).
Qed.
Lemma is_some_eq {A} (R : A -> A -> Prop) o o' : orel R o o' -> is_some o = is_some o'.
Proof. intros []; auto. Qed.
Lemma chk_uneval_eq o o' f g : den_eq o o' -> (forall k, f k = g k) ->
  chk_uneval o f v = chk_uneval o' g v.
Proof.
  intros [|x y H] Hf; destruct v; cbn; auto. apply forallb_eq; intros [k j] _; cbn.
  now rewrite Hf, (feq_ok _ _ j H).
Qed.
End Congr.

(** Keywords whose raw value / subschemas matter. *)
Definition data_names : list string := "$ref" :: "type" :: "nullable" :: "enum" :: "const" :: assertion_names.
Definition den_names : list string :=
  ["not"; "if"; "then"; "else"; "items"; "additionalItems"; "contains"; "additionalProperties";
   "propertyNames"; "unevaluatedProperties"].
Definition arr_names : list string := ["allOf"; "anyOf"; "oneOf"; "prefixItems"; "items"].
Definition obj_names : list string := ["properties"; "patternProperties"; "dependentSchemas"].

Record srel (S S' : string -> option sub) : Prop := Srel {
  srel_den : forall k, In k den_names -> den_eq (S k) (S' k);
  srel_arr : forall k, In k arr_names -> arr_eq (S k) (S' k);
  srel_obj : forall k, In k obj_names -> obj_eq (S k) (S' k)
}.

Lemma chk_assertions_eq E R R' v : (forall k, In k data_names -> R k = R' k) ->
  chk_assertions E R v = chk_assertions E R' v.
Proof.
  intros H. apply forallb_eq; intros k Hk. rewrite H; [auto|]. unfold data_names. cbn [In]. tauto.
Qed.

Ltac in_names := cbn; repeat (first [left; reflexivity | right]).

Ltac srel_tac HS :=
  repeat first [apply when_den | apply when_obj];
  first [apply (srel_den _ _ HS); in_names | apply (srel_arr _ _ HS); in_names
        | apply (srel_obj _ _ HS); in_names].

Lemma chk_main_eq d E R R' S S' v :
  (forall k, In k data_names -> R k = R' k) ->
  srel S S' ->
  chk_main d E R S v = chk_main d E R' S' v.
Proof.
  intros HR HS. unfold chk_main.
  rewrite (chk_assertions_eq E R R' v HR).
  rewrite !HR by in_names.
  rewrite (chk_all_eq v (S "allOf") (S' "allOf")) by srel_tac HS.
  rewrite (chk_any_eq v (S "anyOf") (S' "anyOf")) by srel_tac HS.
  rewrite (chk_one_eq v (S "oneOf") (S' "oneOf")) by srel_tac HS.
  rewrite (chk_not_eq v (S "not") (S' "not")) by srel_tac HS.
  rewrite (chk_if_eq v (when (d_extra d) (S "if")) (when (d_extra d) (S' "if"))
             (S "then") (S' "then") (S "else") (S' "else")) by srel_tac HS.
  rewrite (chk_items_eq v d (S "prefixItems") (S' "prefixItems") (S "items") (S' "items")
             (S "additionalItems") (S' "additionalItems")) by srel_tac HS.
  rewrite (chk_contains_eq v (when (d_extra d) (S "contains")) (when (d_extra d) (S' "contains"))) by srel_tac HS.
  rewrite (chk_props_eq v (S "properties") (S' "properties")) by srel_tac HS.
  rewrite (chk_patterns_eq E v (when (d_extra d) (S "patternProperties"))
             (when (d_extra d) (S' "patternProperties"))) by srel_tac HS.
  rewrite (chk_additional_eq E v (S "properties") (S' "properties")
             (when (d_extra d) (S "patternProperties")) (when (d_extra d) (S' "patternProperties"))
             (S "additionalProperties") (S' "additionalProperties")) by srel_tac HS.
  rewrite (chk_names_eq v (when (d_extra d) (S "propertyNames")) (when (d_extra d) (S' "propertyNames"))) by srel_tac HS.
  rewrite (chk_dependent_eq v (when (d_depend d) (S "dependentSchemas"))
             (when (d_depend d) (S' "dependentSchemas"))) by srel_tac HS.
  reflexivity.
Qed.

Lemma ev_main_eq d E R R' S S' v k :
  (forall k, In k data_names -> R k = R' k) ->
  srel S S' ->
  ev_main d E R S v k = ev_main d E R' S' v k.
Proof.
  intros HR HS. unfold ev_main.
  rewrite !HR by in_names.
  rewrite (in_props_eq (S "properties") (S' "properties")) by srel_tac HS.
  rewrite (in_patterns_eq E (when (d_extra d) (S "patternProperties"))
             (when (d_extra d) (S' "patternProperties"))) by srel_tac HS.
  rewrite (is_some_eq _ (S "additionalProperties") (S' "additionalProperties")
             (srel_den _ _ HS "additionalProperties" ltac:(in_names))).
  rewrite (ev_list_eq v (S "allOf") (S' "allOf")) by srel_tac HS.
  rewrite (ev_list_eq v (S "anyOf") (S' "anyOf")) by srel_tac HS.
  rewrite (ev_list_eq v (S "oneOf") (S' "oneOf")) by srel_tac HS.
  rewrite (ev_if_eq v (when (d_extra d) (S "if")) (when (d_extra d) (S' "if"))
             (S "then") (S' "then") (S "else") (S' "else")) by srel_tac HS.
  rewrite (ev_dependent_eq v (when (d_depend d) (S "dependentSchemas"))
             (when (d_depend d) (S' "dependentSchemas"))) by srel_tac HS.
  reflexivity.
Qed.

Lemma eval_obj_congr d E R R' S S' v :
  (forall k, In k data_names -> R k = R' k) ->
  srel S S' ->
  req (eval_obj d E R S v) (eval_obj d E R' S' v).
Proof.
  intros HR HS. unfold eval_obj. rewrite !HR by in_names.
  destruct (d_ref_alone d && _); [apply req_refl|].
  assert (HU : den_eq (when (d_uneval d) (S "unevaluatedProperties"))
                 (when (d_uneval d) (S' "unevaluatedProperties"))) by srel_tac HS.
  split; cbn [ok ev].
  - rewrite (chk_main_eq d E R R' S S' v HR HS). f_equal.
    apply chk_uneval_eq; [exact HU|]. intros; now apply ev_main_eq.
  - intros k. rewrite (chk_main_eq d E R R' S S' v HR HS).
    rewrite (chk_uneval_eq v _ _ (ev_main d E R S v) (ev_main d E R' S' v) HU)
      by (intros; now apply ev_main_eq).
    rewrite (is_some_eq _ _ _ HU). now rewrite (ev_main_eq d E R R' S S' v k HR HS).
Qed.

(** ** The meaning of an object schema, by lookups *)
Definition sub_of (d : dialect) (E : env) (x : json) : sub :=
  Sub (eval d E x)
      match x with JArr l => Some (map (eval d E) l) | _ => None end
      match x with
      | JObj m => Some (map (fun kv => (fst kv, eval d E (snd kv))) m) | _ => None end.

Definition eval_map (d : dialect) (E : env) (m : map_t) : json -> result :=
  eval_obj d E (fun k => mget k m) (fun k => option_map (sub_of d E) (mget k m)).

Lemma eval_JObj d E m : feq (eval d E (JObj m)) (eval_map d E m).
Proof.
  assert (H : forall k, mget k (map (fun kv => (fst kv, (fun _ x => sub_of d E x) (fst kv) (snd kv))) m)
                        = option_map (sub_of d E) (mget k m)).
  { intros k. now rewrite (mget_map (fun _ x => sub_of d E x)). }
  intros v. cbn [eval]. unfold eval_map. apply eval_obj_congr; [auto|].
  split; intros k _; specialize (H k); cbn beta in H; unfold sub_of in H at 1; rewrite H; auto.
Qed.

(** Object schemas that agree on every keyword mean the same. *)
Lemma eval_lookup_eq d E m m' :
  (forall k, In k (data_names ++ den_names ++ arr_names ++ obj_names) -> mget k m = mget k m') ->
  feq (eval d E (JObj m)) (eval d E (JObj m')).
Proof.
  intros H v. eapply req_trans; [apply eval_JObj|]. eapply req_trans; [|apply req_sym, eval_JObj].
  apply eval_obj_congr; [|split]; intros k Hk; rewrite H; auto; rewrite !in_app_iff; auto.
Qed.

(** A [false] schema and an empty one. *)
Lemma eval_true d E v : req (eval d E (JBool true) v) (eval d E (JObj []) v).
Proof. split; destruct v, d as [[] [] [] [] [] [] []]; reflexivity. Qed.
Lemma eval_empty d E v : req (eval d E (JObj []) v) (Res true none_ev).
Proof. apply req_sym, eval_true. Qed.
Lemma eval_false d E v : req (eval d E (JBool false) v) (eval d E (JObj [("not", JObj [])]) v).
Proof. split; destruct v, d as [[] [] [] [] [] [] []]; reflexivity. Qed.
