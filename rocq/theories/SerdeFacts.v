(** Facts about the specification of serde (Serde.v). *)
From Coq Require Import String Ascii List ZArith Bool Lia.
From Verif Require Import Json JsonFacts SchemaApi Validate Private Generate SerValue SerValueProofs Types Serde.
Import ListNotations.
Open Scope string_scope.
Open Scope list_scope.

(** ** The size of a value *)
Fixpoint rsize (v : rval) : nat :=
  match v with
  | RSome v => S (rsize v)
  | RSeq l | RVariant _ l => S (S (list_sum (map rsize l)))
  | RMap l => S (S (list_sum (map (fun kv => match kv with (a, b) => rsize a + rsize b end) l)))
  | _ => 1
  end.

Lemma in_sum (l : list nat) x : In x l -> x <= list_sum l.
Proof. induction l as [|a l IH]; [intros []|]. cbn [In list_sum fold_right]. fold (list_sum l). intros [->|H]; [lia|]. apply IH in H. lia. Qed.

Lemma size_seq l x : In x l -> rsize x < rsize (RSeq l).
Proof. intros H. cbn [rsize]. apply (in_map rsize), in_sum in H. lia. Qed.
Lemma size_variant i l x : In x l -> rsize x < rsize (RVariant i l).
Proof. intros H. cbn [rsize]. apply (in_map rsize), in_sum in H. lia. Qed.
Lemma size_map l a b : In (a, b) l -> rsize a < rsize (RMap l) /\ rsize b < rsize (RMap l).
Proof.
  intros H. cbn [rsize]. apply (in_map (fun kv : rval * rval => match kv with (a, b) => rsize a + rsize b end)), in_sum in H. lia.
Qed.
Lemma size_pos v : 1 <= rsize v.
Proof. destruct v; cbn; lia. Qed.

(** ** [to_json] and [json_of] *)
Lemma omap_le {A B} (f g : A -> option B) l ys : Forall (fun x => forall y, f x = Some y -> g x = Some y) l ->
  omap f l = Some ys -> omap g l = Some ys.
Proof.
  intros H HF. apply omap_F2 in HF. apply omap_F2. revert H. induction HF as [|x y l ys Hx HF IH]; intros H; constructor; inversion H; auto.
Qed.

Theorem to_json_json_of v : forall j, to_json v = Some j -> json_of v = Some j.
Proof.
  induction v using sval_ind'; intros j Hj; cbn [to_json json_of] in *; auto.
  - destruct v; try discriminate H; auto. cbn in Hj. destruct (fits_number z); [exact Hj|discriminate].
  - destruct (to_json v) eqn:E; [|discriminate]. now rewrite (IHv _ eq_refl).
  - destruct (omap to_json l) as [js|] eqn:E; [|discriminate]. now rewrite (omap_le _ _ _ _ H E).
  - destruct (omap to_json l) as [js|] eqn:E; [|discriminate]. now rewrite (omap_le _ _ _ _ H E).
  - destruct (omap to_json l) as [js|] eqn:E; [|discriminate]. now rewrite (omap_le _ _ _ _ H E).
  - destruct (omap to_json l) as [js|] eqn:E; [|discriminate]. now rewrite (omap_le _ _ _ _ H E).
  - set (f := fun kv : sval * sval => let (a, b) := kv in match key_json a with Some k => match to_json b with Some j => Some (k, j) | None => None end | None => None end) in *.
    destruct (omap f l) as [es|] eqn:E; [|discriminate]. erewrite omap_le; [exact Hj| |exact E].
    eapply Forall_impl; [|exact H]. intros [a b] HB y Hy. unfold f in Hy. cbn [snd] in HB.
    destruct (key_json a); [|discriminate]. destruct (to_json b) eqn:EB; [|discriminate]. now rewrite (HB _ eq_refl).
  - set (f := fun kv : sval * sval => let (a, b) := kv in match key_json a with Some k => match to_json b with Some j => Some (k, j) | None => None end | None => None end) in *.
    destruct (omap f l) as [es|] eqn:E; [|discriminate]. erewrite omap_le; [exact Hj| |exact E].
    eapply Forall_impl; [|exact H]. intros [a b] HB y Hy. unfold f in Hy. cbn [snd] in HB.
    destruct (key_json a); [|discriminate]. destruct (to_json b) eqn:EB; [|discriminate]. now rewrite (HB _ eq_refl).
  - set (f := fun kv : string * sval => let (k, b) := kv in option_map (pair k) (to_json b)) in *.
    destruct (omap f l) as [es|] eqn:E; [|discriminate]. erewrite omap_le; [exact Hj| |exact E].
    eapply Forall_impl; [|exact H]. intros [a b] HB y Hy. unfold f in Hy. cbn [snd] in HB.
    destruct (to_json b) eqn:EB; [|discriminate]. now rewrite (HB _ eq_refl).
  - set (f := fun kv : string * sval => let (k, b) := kv in option_map (pair k) (to_json b)) in *.
    destruct (omap f l) as [es|] eqn:E; [|discriminate]. erewrite omap_le; [exact Hj| |exact E].
    eapply Forall_impl; [|exact H]. intros [a b] HB y Hy. unfold f in Hy. cbn [snd] in HB.
    destruct (to_json b) eqn:EB; [|discriminate]. now rewrite (HB _ eq_refl).
Qed.

(** The text a value has as a map key *)
Inductive key_of : json -> string -> Prop :=
| KeyStr s : key_of (JStr s) s
| KeyInt z : key_of (JNum (NInt z)) (show_int z)
| KeyBool (b : bool) : key_of (JBool b) (if b then "true" else "false").

Lemma key_json_of v : forall n, key_json v = Some n -> exists j, json_of v = Some j /\ key_of j n.
Proof.
  induction v using sval_ind'; intros m Hm; cbn [key_json json_of] in *; try discriminate.
  - destruct v; try discriminate; injection Hm as <-; eexists; (split; [reflexivity|constructor]).
  - apply IHv, Hm.
Qed.

(** ** Entries *)
Definition entry_json (kv : string * sval) : option (string * json) :=
  match kv with (k, b) => option_map (pair k) (json_of b) end.

Lemma json_struct n es : json_of (VStruct n es) = option_map (fun es => JObj (mk es)) (omap entry_json es).
Proof. reflexivity. Qed.

Lemma omap_map {A B C} (f : B -> option C) (g : A -> B) l : omap f (map g l) = omap (fun x => f (g x)) l.
Proof. induction l as [|x l IH]; [reflexivity|]. cbn. fold (omap f) (omap (fun x => f (g x))). now rewrite IH. Qed.

Lemma omap_ext {A B} (f g : A -> option B) l : (forall x, In x l -> f x = g x) -> omap f l = omap g l.
Proof.
  intros H. induction l as [|x l IH]; [reflexivity|]. cbn. fold (omap f) (omap g).
  rewrite (H x) by now left. rewrite IH; [reflexivity|]. intros y Hy. apply H. now right.
Qed.

Lemma omap_app {A B} (f : A -> option B) a b :
  omap f (a ++ b) = match omap f a, omap f b with Some x, Some y => Some (x ++ y) | _, _ => None end.
Proof.
  induction a as [|x a IH]; cbn; fold (omap f); [now destruct (omap f b)|]. rewrite IH.
  destruct (f x); [|reflexivity]. destruct (omap f a); [|reflexivity]. now destruct (omap f b).
Qed.

Lemma omap_some_id {A} (l : list A) : omap (fun x => Some x) l = Some l.
Proof. induction l as [|x l IH]; [reflexivity|]. cbn. fold (omap (fun x : A => Some x)). now rewrite IH. Qed.

Lemma json_struct_value n fs es :
  json_of (struct_value n fs es) = option_map (fun es => JObj (mk es)) (omap entry_json es).
Proof.
  unfold struct_value. destruct (existsb f_flatten fs); [|reflexivity]. cbn [json_of]. rewrite omap_map. f_equal.
  apply omap_ext. intros [k x] _. cbn. now destruct (json_of x).
Qed.

Lemma flat_struct_value n fs es : flat_entries (struct_value n fs es) = Some es.
Proof.
  unfold struct_value. destruct (existsb f_flatten fs); [|reflexivity]. cbn [flat_entries]. unfold str_entries. rewrite omap_map.
  etransitivity; [|apply omap_some_id]. apply omap_ext. intros [k x] _. reflexivity.
Qed.

Section Facts.
Variable items : nat -> item rval.
Variable text_ok : checks.
Notation ser_fields := (Serde.ser_fields text_ok).
Notation ser_elements := (Serde.ser_elements text_ok).
Notation ser_one := (Serde.ser_one text_ok).
Notation ser_field := (Serde.ser_field text_ok).
Notation ser_struct := (Serde.ser_struct text_ok).
Notation ser_variant := (Serde.ser_variant text_ok).
Notation ser_untagged := (Serde.ser_untagged text_ok).

Lemma ser_fwd st v t : ser items text_ok st v (TFwd t) = ser items text_ok st v t.
Proof. destruct v; reflexivity. Qed.
Lemma ser_weak v t : ser items text_ok true v (TWeak t) = match v with RDead => None | _ => option_map VSome (ser items text_ok true v t) end.
Proof. destruct v; reflexivity. Qed.

Lemma checked_inv f r v : ser_checked text_ok true f r = Some v ->
  r = Some v /\ (f_flatten f = false -> forall j, json_of v = Some j -> meets text_ok (f_valid f) j = true).
Proof.
  unfold ser_checked. destruct r as [w|]; [|discriminate]. cbn [andb].
  destruct (f_flatten f); cbn [negb andb]; [intros [= ->]; split; [reflexivity|discriminate]|].
  destruct (json_of w) as [j|] eqn:EJ; [|intros [= ->]; split; [reflexivity|congruence]].
  destruct (meets text_ok (f_valid f) j) eqn:EM; [|discriminate]. intros [= ->]. split; [reflexivity|]. intros _ j' HJ. congruence.
Qed.
Lemma field_inv f x v : ser_field true f x = Some v ->
  (f_required f && negb (present (f_ty f) (fst x)) = false) /\ snd x (f_ty f) = Some v
  /\ (f_flatten f = false -> forall j, json_of v = Some j -> meets text_ok (f_valid f) j = true).
Proof.
  unfold Serde.ser_field. cbn [andb]. destruct (_ && negb _); [discriminate|]. intros H. split; [reflexivity|]. now apply checked_inv.
Qed.
Lemma field_loose f x : ser_field false f x = snd x (f_ty f).
Proof. unfold Serde.ser_field, ser_checked. cbn [andb]. now destruct (snd x (f_ty f)). Qed.

Lemma flat_field f x : f_flatten f = true ->
  ser_field true f x = if f_required f && negb (present (f_ty f) (fst x)) then None else snd x (f_ty f).
Proof. intros H. unfold Serde.ser_field, ser_checked. cbn [andb]. rewrite H. destruct (_ && negb _); [reflexivity|]. now destruct (snd x (f_ty f)). Qed.

(** ** Strict serialization only refuses more *)
Lemma ser_fields_le rn (fs : list (field rval)) : forall xs ys,
  Forall2 (fun x y : part => fst x = fst y /\ forall t s, snd x t = Some s -> snd y t = Some s) xs ys ->
  forall es, ser_fields true rn fs xs = Some es -> ser_fields false rn fs ys = Some es.
Proof.
  induction fs as [|f fs IH]; intros xs ys HF es H; inversion HF as [|x y xs' ys' [Hx Hy] HF']; subst; cbn [Serde.ser_fields Serde.ser_elements] in *; auto; try discriminate.
  destruct (ser_fields true rn fs xs') as [rest|] eqn:ER; [|discriminate]. rewrite (IH _ _ HF' _ ER). rewrite <- Hx.
  destruct (f_skip_ser f || skip_now f (fst x)); [exact H|].
  rewrite field_loose. destruct (ser_field true f x) as [s|] eqn:EF; [|discriminate]. apply field_inv in EF as (_ & EX & _).
  rewrite (Hy _ _ EX). destruct (f_flatten f); [|exact H].
  destruct (flat_entries s) as [e|]; [|discriminate]. destruct (clashes true rn f e); [discriminate|exact H].
Qed.

Lemma ser_elements_le (fs : list (field rval)) : forall xs ys,
  Forall2 (fun x y : part => fst x = fst y /\ forall t s, snd x t = Some s -> snd y t = Some s) xs ys ->
  forall es, ser_elements true fs xs = Some es -> ser_elements false fs ys = Some es.
Proof.
  induction fs as [|f fs IH]; intros xs ys HF es H; inversion HF as [|x y xs' ys' [Hx Hy] HF']; subst; cbn [Serde.ser_fields Serde.ser_elements] in *; auto; try discriminate.
  destruct (ser_elements true fs xs') as [rest|] eqn:ER; [|discriminate]. rewrite (IH _ _ HF' _ ER). rewrite <- Hx.
  destruct (f_skip_ser f || skip_now f (fst x)); [exact H|].
  rewrite field_loose. destruct (ser_field true f x) as [s|] eqn:EF; [|discriminate]. apply field_inv in EF as (_ & EX & _).
  rewrite (Hy _ _ EX). exact H.
Qed.

Lemma ser_one_le (f : field rval) : forall xs ys,
  Forall2 (fun x y : part => fst x = fst y /\ forall t s, snd x t = Some s -> snd y t = Some s) xs ys ->
  forall es, ser_one true f xs = Some es -> ser_one false f ys = Some es.
Proof.
  intros xs ys HF es H. destruct HF as [|x y xs' ys' [Hx Hy] HF]; [discriminate|]. unfold Serde.ser_one in *.
  destruct HF; [|discriminate]. rewrite field_loose. apply field_inv in H as (_ & EX & _). now apply Hy.
Qed.

Lemma omap_none {A B} (f : A -> option B) l : omap f l = None -> exists x, In x l /\ f x = None.
Proof.
  induction l as [|x l IH]; [discriminate|]. cbn. fold (omap f). destruct (f x) eqn:E.
  - destruct (omap f l); [discriminate|]. intros _. destruct (IH eq_refl) as (y & Hy & E'). exists y. auto.
  - intros _. exists x. auto.
Qed.

Notation le_parts := (Forall2 (fun x y : part => fst x = fst y /\ forall t s, snd x t = Some s -> snd y t = Some s)).

Lemma option_map_le {A B} (f : A -> B) (x y : option A) r : (forall a, x = Some a -> y = Some a) ->
  option_map f x = Some r -> option_map f y = Some r.
Proof. intros H. destruct x; [|discriminate]. now rewrite (H _ eq_refl). Qed.

Lemma ser_struct_le n (s : style rval) xs ys r : le_parts xs ys ->
  ser_struct true n s xs = Some r -> ser_struct false n s ys = Some r.
Proof.
  intros HF. destruct s as [|f|fs|fs]; cbn [Serde.ser_struct].
  - destruct HF; auto.
  - apply option_map_le. intros a. now apply ser_one_le.
  - apply option_map_le. intros a. now apply ser_elements_le.
  - apply option_map_le. intros a. now apply ser_fields_le.
Qed.

Lemma ser_untagged_le (s : style rval) xs ys r : le_parts xs ys ->
  ser_untagged true s xs = Some r -> ser_untagged false s ys = Some r.
Proof.
  intros HF. unfold Serde.ser_untagged. destruct (effective_style s) as [|f|fs|fs].
  - auto.
  - now apply ser_one_le.
  - apply option_map_le. intros a. now apply ser_elements_le.
  - apply option_map_le. intros a. now apply ser_fields_le.
Qed.

Lemma ser_variant_le tg (v : variant rval) xs ys r : le_parts xs ys ->
  ser_variant true tg v xs = Some r -> ser_variant false tg v ys = Some r.
Proof.
  intros HF. unfold Serde.ser_variant. destruct (v_skip_ser v); [discriminate|].
  destruct (v_untagged v); [now apply ser_untagged_le|]. destruct tg as [| |tag|tag content].
  - destruct (effective_style (v_style v)) as [|f|fs|fs]; auto; apply option_map_le; intros a.
    + now apply ser_one_le.
    + now apply ser_elements_le.
    + now apply ser_fields_le.
  - now apply ser_untagged_le.
  - destruct (effective_style (v_style v)) as [|f|fs|fs]; auto.
    + destruct (ser_one true f xs) eqn:E; [|discriminate]. now rewrite (ser_one_le _ _ _ HF _ E).
    + apply option_map_le; intros a. now apply ser_fields_le.
  - destruct (effective_style (v_style v)) as [|f|fs|fs]; auto; apply option_map_le; intros a; now apply ser_untagged_le.
Qed.

Notation ser' := (ser items text_ok).

Lemma ser_tuple_le ts : forall xs ys r, le_parts xs ys -> ser_tuple ts xs = Some r -> ser_tuple ts ys = Some r.
Proof.
  induction ts as [|t ts IH]; intros xs ys r HF H; destruct HF as [|x y xs ys [Hx Hy] HF]; cbn in *; auto; try discriminate.
  destruct (snd x t) eqn:E; [|discriminate]. rewrite (Hy _ _ E). fold ser_tuple in *.
  destruct (ser_tuple ts xs) eqn:E2; [|discriminate]. now rewrite (IH _ _ _ HF E2).
Qed.

Theorem ser_strict v : forall t r, ser' true v t = Some r -> ser' false v t = Some r.
Proof.
  remember (rsize v) as n eqn:En. assert (HL : rsize v <= n) by lia. clear En. revert v HL.
  induction n as [|n IH]; intros v HL; [pose proof (size_pos v); lia|].
  assert (HS : forall l t, (forall x, In x l -> rsize x <= n) -> forall r, omap (fun x => ser' true x t) l = Some r -> omap (fun x => ser' false x t) l = Some r).
  { intros l t Hl r. apply omap_le. apply Forall_forall. intros x Hx y. apply IH. now apply Hl. }
  assert (HP : forall l, (forall x, In x l -> rsize x <= n) -> le_parts (map (fun x => (x, ser' true x)) l) (map (fun x => (x, ser' false x)) l)).
  { intros l. induction l as [|x l IHl]; intros Hl; cbn; constructor.
    - split; [reflexivity|]. intros t s. cbn. apply IH, Hl. now left.
    - apply IHl. intros y Hy. apply Hl. now right. }
  induction t; intros r Hr; try (rewrite ser_fwd in *; now apply IHt).
  all: try (destruct v; cbn in Hr |- *; exact Hr).
  all: try (destruct v; cbn in Hr |- *; try exact Hr; destruct f; [exact Hr|discriminate]).
  - (* Option *) destruct v; cbn in Hr |- *; try discriminate; [exact Hr|]. cbn in HL.
    revert Hr. apply option_map_le. intros a. apply IH. lia.
  - destruct v; cbn in Hr |- *; try discriminate. revert Hr. apply option_map_le. apply HS. intros x Hx.
    apply size_seq in Hx. lia.
  - destruct v; cbn in Hr |- *; try discriminate.
    destruct (omap (fun x => ser' true x t) l) eqn:E; [|discriminate]. rewrite (HS l t) with (r := l0).
    + destruct (distinct_json l0); [exact Hr|discriminate].
    + intros x Hx. apply size_seq in Hx. lia.
    + exact E.
  - destruct v; cbn in Hr |- *; try discriminate. destruct (Nat.eqb (List.length l) n0); [|discriminate].
    revert Hr. apply option_map_le. apply HS. intros x Hx. apply size_seq in Hx. lia.
  - destruct v; cbn in Hr |- *; try discriminate. revert Hr. apply option_map_le. intros a. apply ser_tuple_le, HP.
    intros x Hx. apply size_seq in Hx. lia.
  - destruct v; cbn in Hr |- *; try discriminate. revert Hr. apply option_map_le. intros a. apply omap_le.
    apply Forall_forall. intros [x y] Hx b. apply size_map in Hx as [H1 H2].
    destruct (ser' true x t1) eqn:E1; [|discriminate]. destruct (ser' true y t2) eqn:E2; [|discriminate].
    rewrite (IH x) with (r := s), (IH y) with (r := s0); [auto|lia|auto|lia|auto].
  - destruct v as [| | | | | | | | | | |i l]; cbn in Hr |- *; try discriminate.
    destruct i as [|[|i]]; try discriminate; destruct l as [|x [|]]; try discriminate;
      (revert Hr; apply option_map_le; intros a; apply IH; cbn in HL; lia).
  - destruct v as [| | | | | | | | | | |i l]; cbn in Hr |- *; try discriminate.
    destruct i as [|[|[|i]]]; try discriminate; destruct l as [|x [|]]; try discriminate; try exact Hr;
      (revert Hr; apply option_map_le; intros a; apply IH; cbn in HL; lia).
  - destruct v as [| | | | | | |l| | | |]; cbn in Hr |- *; try discriminate. destruct l as [|x [|y [|]]]; try discriminate.
    cbn in HL. destruct (ser' true x t) eqn:E1; [|discriminate]. destruct (ser' true y t) eqn:E2; [|discriminate].
    rewrite (IH x) with (r := s), (IH y) with (r := s0); [auto|lia|auto|lia|auto].
  - destruct v as [| | | | | | | | | | |i l]; cbn [ser] in Hr |- *; try discriminate.
    destruct i as [|[|i]]; try discriminate; destruct l as [|x [|]]; try discriminate;
      (revert Hr; apply option_map_le; intros a; apply IH; cbn in HL; lia).
  - destruct v as [| | | | | | | | | | |i l]; cbn in Hr |- *; try discriminate.
    destruct i as [|[|i]]; try discriminate; destruct l as [|x [|]]; try discriminate;
      (revert Hr; apply option_map_le; intros a; apply IH; cbn in HL; lia).
  - destruct v; cbn in Hr |- *; try discriminate. destruct (List.length l <=? n0)%nat; [|discriminate].
    revert Hr. apply option_map_le. apply HS. intros x Hx. apply size_seq in Hx. lia.
  - (* Weak *) destruct v; cbn in Hr |- *; try discriminate;
      (revert Hr; apply option_map_le; intros a; apply IHt).
  - destruct v as [| | | | | | |l| | | |i l]; cbn [ser] in Hr |- *; try discriminate.
    + unfold ser_decl in *. revert Hr. induction (d_data (it_decl (items item) consts args)) as [def s|tg vs|zs|from [t|] own IHd]; cbn [ser_data]; try discriminate; [| |exact IHd].
      * apply ser_struct_le, HP. intros x Hx. apply size_seq in Hx. lia.
      * destruct l as [|x [|]]; try discriminate. apply IH. cbn in HL. lia.
    + unfold ser_decl in *. revert Hr. induction (d_data (it_decl (items item) consts args)) as [def s|tg vs|zs|from [t|] own IHd]; cbn [ser_data]; try discriminate; [| |exact IHd].
      * destruct (nth_error vs i); [|discriminate]. apply ser_variant_le, HP. intros x Hx. apply (size_variant i) in Hx. lia.
      * now destruct l.
Qed.

(** The values of C42, C46 and C47: what strict serialization gives is what serde gives. *)
Theorem value_json_strict t v j :
  value_json items text_ok true t v = Some j -> value_json items text_ok false t v = Some j.
Proof.
  unfold value_json. destruct (ser' true v t) eqn:E; [|discriminate]. now rewrite (ser_strict _ _ _ E).
Qed.

(** ** Options *)
Lemma present_strip t : forall v sv, present t v = true -> ser' true v t = Some sv ->
  exists v' sv', rsize v' <= rsize v /\ ser' true v' (strip_option t) = Some sv'
    /\ json_of sv' = json_of sv /\ flat_entries sv' = flat_entries sv.
Proof.
  induction t; intros v sv HP HS; try (now exists v, sv).
  - destruct v; try discriminate. cbn [present] in HP. cbn in HS. destruct (ser' true v t) eqn:E; [|discriminate].
    injection HS as <-. destruct (IHt _ _ HP E) as (v' & sv' & H1 & H2 & H3 & H4). exists v', sv'. cbn. repeat split; auto.
  - rewrite ser_fwd in HS. destruct (IHt v sv) as (v' & sv' & H); [destruct v; exact HP|exact HS|]. now exists v', sv'.
  - rewrite ser_weak in HS. assert (HP' : present t v = true) by (destruct v; exact HP).
    assert (HS' : exists s, ser' true v t = Some s /\ sv = VSome s).
    { destruct v; try discriminate HS; (destruct (ser' true _ t) eqn:E; [|discriminate]; injection HS as <-; eauto). }
    destruct HS' as (s & HS' & ->). destruct (IHt v s HP' HS') as (v' & sv' & H1 & H2 & H3 & H4). exists v', sv'. auto.
Qed.

Lemma absent_flat t : forall v sv, present t v = false -> ser' true v t = Some sv ->
  is_option t = true /\ flat_entries sv = Some [].
Proof.
  induction t; intros v sv HP HS; try (destruct v; discriminate).
  - split; [reflexivity|]. destruct v; cbn in HS; try discriminate; [now injection HS as <-|].
    destruct (ser' true v t) eqn:E; [|discriminate]. injection HS as <-. cbn. cbn in HP. now apply (IHt v s).
  - rewrite ser_fwd in HS. apply (IHt v sv); [destruct v; exact HP|exact HS].
  - rewrite ser_weak in HS. assert (HP' : present t v = false) by (destruct v; exact HP).
    assert (HS' : exists s, ser' true v t = Some s /\ sv = VSome s).
    { destruct v; try discriminate HS; (destruct (ser' true _ t) eqn:E; [|discriminate]; injection HS as <-; eauto). }
    destruct HS' as (s & HS' & ->). apply (IHt v s HP' HS').
Qed.
End Facts.
