(** Types that forward to the same type: the same id, the same values, the same schema. *)
From Coq Require Import String Ascii List ZArith Bool Lia.
From Verif Require Import Json JsonFacts SchemaApi Validate Pointer Private Generate SerValue SerValueProofs Types Serde SerdeFacts TypeId.
Import ListNotations.
Open Scope string_scope.
Open Scope list_scope.

(** No Weak pointer is a map key: a Weak is serialized like an Option, and those cannot be keys. *)
Fixpoint no_weak (t : rty) : Prop :=
  match t with
  | TOption t | TSeq t | TSet t | TArray _ t | TArrayVec _ t | TBound t | TRange t | TFwd t => no_weak t
  | TTuple ts => (fix all l := match l with [] => True | x :: l' => no_weak x /\ all l' end) ts
  | TMap a b | TResult a b | TEither a b => no_weak a /\ no_weak b
  | TWeak _ => False
  | _ => True
  end.
Fixpoint weak_keys_free (t : rty) : Prop :=
  match t with
  | TOption t | TSeq t | TSet t | TArray _ t | TArrayVec _ t | TBound t | TRange t | TFwd t | TWeak t => weak_keys_free t
  | TTuple ts => (fix all l := match l with [] => True | x :: l' => weak_keys_free x /\ all l' end) ts
  | TMap a b => no_weak a /\ weak_keys_free b
  | TResult a b | TEither a b => weak_keys_free a /\ weak_keys_free b
  | _ => True
  end.

Lemma all_Forall (P : rty -> Prop) ts : (fix all (l : list rty) := match l with [] => True | x :: l' => P x /\ all l' end) ts <-> Forall P ts.
Proof. induction ts as [|t ts IH]; split; auto; [intros [H1 H2]; constructor; tauto|]. intros H. inversion H; subst. tauto. Qed.

Lemma omap_bind {A B C} (f : A -> option B) (g : B -> option C) l :
  match omap f l with Some ys => omap g ys | None => None end = omap (fun x => match f x with Some y => g y | None => None end) l.
Proof.
  induction l as [|x l IH]; [reflexivity|]. cbn. fold (omap f) (omap (fun x => match f x with Some y => g y | None => None end)).
  destruct (f x) as [y|]; [|reflexivity]. rewrite <- IH. destruct (omap f l); [reflexivity|]. now destruct (g y).
Qed.

Section Erase.
Variable items : nat -> item rval.
Variable text_ok : checks.
Notation ser_ := (ser items text_ok true).
Definition js (v : rval) (t : rty) : option json := match ser_ v t with Some sv => json_of sv | None => None end.

Lemma ser_erase n : forall v t, rsize v < n -> no_weak t -> ser_ v t = ser_ v (erase t).
Proof.
  induction n as [|n IH]; intros v t HL; [lia|].
  assert (HS : forall l t, rsize (RSeq l) < S n -> no_weak t -> omap (fun x => ser_ x t) l = omap (fun x => ser_ x (erase t)) l).
  { intros l t0 HL0 H0. apply omap_ext. intros x Hx. apply IH; auto. apply size_seq in Hx. lia. }
  induction t using rty_ind'; intros HN; cbn [erase]; try (destruct t; tauto || reflexivity).
  - destruct v; try reflexivity. cbn. now rewrite (IH v t) by (cbn in HL; lia || exact HN).
  - destruct v; try reflexivity. cbn. now rewrite HS.
  - destruct v; try reflexivity. cbn. now rewrite HS.
  - destruct n0.
    + destruct v; try reflexivity. destruct l; reflexivity.
    + destruct v; try reflexivity. cbn. now rewrite HS.
  - destruct v; try reflexivity. cbn [ser]. f_equal. cbn [no_weak] in HN. rewrite all_Forall in HN.
    assert (HX : forall x, In x l -> forall t, no_weak t -> ser_ x t = ser_ x (erase t)).
    { intros x Hx t0 H0. apply IH; auto. apply size_seq in Hx. lia. }
    clear - HN HX. revert l HX. induction HN as [|t ts HT HN IHs]; intros l HX; destruct l as [|x l]; try reflexivity.
    cbn [map ser_tuple snd]. rewrite (HX x (or_introl eq_refl) t HT). fold (ser_tuple ts) (ser_tuple (map erase ts)).
    rewrite IHs; [reflexivity|]. intros y Hy. apply HX. now right.
  - destruct v; try reflexivity. cbn. f_equal. destruct HN as [H1 H2]. apply omap_ext. intros [a b] Hx.
    rewrite (IH a t1), (IH b t2); auto.
    all: cbn [rsize] in HL; apply (in_map (fun kv => match kv with (a, b) => rsize a + rsize b end)), in_sum in Hx; lia.
  - destruct HN as [H1 H2]. destruct v as [| | | | | | | | | | |i l]; try reflexivity. cbn. destruct i as [|[|]]; try reflexivity; destruct l as [|x [|]]; try reflexivity.
    + rewrite (IH x t1); auto. cbn in HL. lia.
    + rewrite (IH x t2); auto. cbn in HL. lia.
  - destruct v as [| | | | | | | | | | |i l]; try reflexivity. cbn. destruct i as [|[|[|]]]; try reflexivity; destruct l as [|x [|]]; try reflexivity.
    all: rewrite (IH x t); auto; cbn in HL; lia.
  - destruct v as [| | | | | | |l| | | |]; try reflexivity. cbn. destruct l as [|x [|y [|]]]; try reflexivity.
    rewrite (IH x t), (IH y t); auto; cbn in HL; lia.
  - destruct HN as [H1 H2]. destruct v as [| | | | | | | | | | |i l]; try reflexivity. cbn. destruct i as [|[|]]; try reflexivity; destruct l as [|x [|]]; try reflexivity.
    + rewrite (IH x t1); auto. cbn in HL. lia.
    + rewrite (IH x t2); auto. cbn in HL. lia.
  - destruct v; try reflexivity. cbn. now rewrite HS.
  - rewrite ser_fwd. auto.
  - destruct HN.
  - reflexivity.
Qed.

Lemma js_list l t : match omap (fun x => ser_ x t) l with Some ys => omap json_of ys | None => None end = omap (fun x => js x t) l.
Proof. apply omap_bind. Qed.

Lemma js_seq l t : js (RSeq l) (TSeq t) = option_map JArr (omap (fun x => js x t) l).
Proof. rewrite <- js_list. unfold js. cbn. now destruct (omap _ l). Qed.

Lemma js_set l t : js (RSeq l) (TSet t)
  = match omap (fun x => js x t) l with Some ys => if all_distinct ys then Some (JArr ys) else None | None => None end.
Proof.
  rewrite <- js_list. unfold js. cbn. destruct (omap _ l) as [ys|]; [|reflexivity]. unfold check, distinct_json. cbn [negb orb].
  destruct (omap json_of ys) as [zs|] eqn:E; [destruct (all_distinct zs)|]; cbn; rewrite ?E; reflexivity.
Qed.

Lemma js_array n l t : js (RSeq l) (TArray n t) = if Nat.eqb (List.length l) n then option_map JArr (omap (fun x => js x t) l) else None.
Proof. rewrite <- js_list. unfold js. cbn. destruct (Nat.eqb _ _); [|reflexivity]. now destruct (omap _ l). Qed.

Lemma js_array_vec n l t : js (RSeq l) (TArrayVec n t) = if (List.length l <=? n)%nat then option_map JArr (omap (fun x => js x t) l) else None.
Proof. rewrite <- js_list. unfold js. cbn. destruct (_ <=? _)%nat; [|reflexivity]. now destruct (omap _ l). Qed.

Fixpoint js_each (ts : list rty) (l : list rval) : option (list json) :=
  match ts, l with
  | [], [] => Some []
  | t :: ts, x :: l => match js x t, js_each ts l with Some j, Some rest => Some (j :: rest) | _, _ => None end
  | _, _ => None
  end.
Lemma js_tuple l ts : js (RSeq l) (TTuple ts) = option_map JArr (js_each ts l).
Proof.
  unfold js. cbn [ser].
  enough (HX : match ser_tuple ts (map (fun x => (x, ser_ x)) l) with Some ys => omap json_of ys | None => None end = js_each ts l).
  { rewrite <- HX. destruct (ser_tuple _ _); reflexivity. }
  revert l. induction ts as [|t ts IH]; intros [|x l]; try reflexivity. cbn [map ser_tuple snd js_each]. fold (ser_tuple ts).
  rewrite <- IH. unfold js. destruct (ser_ x t) as [sv|]; [|reflexivity]. destruct (ser_tuple ts _) as [svs|].
  - cbn. fold (omap json_of). reflexivity.
  - now destruct (json_of sv).
Qed.

Lemma js_map l k t : js (RMap l) (TMap k t)
  = option_map (fun es => JObj (mk es)) (omap (fun kv => match kv with (a, b) =>
      match match ser_ a k with Some x => key_json x | None => None end, js b t with Some n, Some j => Some (n, j) | _, _ => None end end) l).
Proof.
  unfold js at 1. cbn [ser]. rewrite <- (omap_ext (fun kv => match match kv with (a, b) =>
      match ser_ a k, ser_ b t with Some x, Some y => Some (x, y) | _, _ => None end end with
      | Some (x, y) => match key_json x, json_of y with Some n, Some j => Some (n, j) | _, _ => None end | None => None end)).
  - rewrite <- (omap_bind (fun kv => match kv with (a, b) => match ser_ a k, ser_ b t with Some x, Some y => Some (x, y) | _, _ => None end end)
      (fun kv => match kv with (x, y) => match key_json x, json_of y with Some n, Some j => Some (n, j) | _, _ => None end end)).
    destruct (omap _ l); reflexivity.
  - intros [a b] _. unfold js. destruct (ser_ a k) as [x|]; [|reflexivity]. destruct (ser_ b t); [reflexivity|]. now destruct (key_json x).
Qed.

Lemma js_range x y t : js (RSeq [x; y]) (TRange t)
  = match js x t, js y t with Some a, Some b => Some (JObj (mk [("start", a); ("end", b)])) | _, _ => None end.
Proof.
  unfold js. cbn [ser]. destruct (ser_ x t) as [a|], (ser_ y t) as [b|]; cbn [json_of omap option_map]; try reflexivity.
  - cbn. destruct (json_of a), (json_of b); reflexivity.
  - now destruct (json_of a).
Qed.

Lemma js_erase n : forall v t, rsize v < n -> weak_keys_free t -> js v t = js v (erase t).
Proof.
  induction n as [|n IH]; intros v t HL; [lia|].
  assert (HS : forall l t, rsize (RSeq l) < S n -> weak_keys_free t -> omap (fun x => js x t) l = omap (fun x => js x (erase t)) l).
  { intros l t0 HL0 H0. apply omap_ext. intros x Hx. apply IH; auto. apply size_seq in Hx. lia. }
  induction t using rty_ind'; intros HN; cbn [erase]; try (destruct t; tauto || reflexivity).
  - destruct v; try reflexivity. unfold js. cbn. pose proof (IH v t ltac:(cbn in HL; lia) HN) as HX. unfold js in HX.
    destruct (ser_ v t), (ser_ v (erase t)); cbn; congruence.
  - destruct v; try reflexivity. now rewrite !js_seq, HS.
  - destruct v; try reflexivity. now rewrite !js_set, HS.
  - destruct n0.
    + destruct v; try reflexivity. destruct l; reflexivity.
    + destruct v; try reflexivity. now rewrite !js_array, HS.
  - destruct v; try reflexivity. rewrite !js_tuple. f_equal. cbn [weak_keys_free] in HN. rewrite all_Forall in HN.
    assert (HX : forall x, In x l -> forall t, weak_keys_free t -> js x t = js x (erase t)).
    { intros x Hx t0 H0. apply IH; auto. apply size_seq in Hx. lia. }
    clear - HN HX. revert l HX. induction HN as [|t ts HT HN IHs]; intros l HX; destruct l as [|x l]; try reflexivity.
    cbn [map js_each]. rewrite (HX x (or_introl eq_refl) t HT).
    rewrite IHs; [reflexivity|]. intros y Hy. apply HX. now right.
  - destruct v; try reflexivity. rewrite !js_map. f_equal. destruct HN as [H1 H2]. apply omap_ext. intros [a b] Hx.
    rewrite (ser_erase n a t1), (IH b t2); auto.
    all: cbn [rsize] in HL; apply (in_map (fun kv => match kv with (a, b) => rsize a + rsize b end)), in_sum in Hx; lia.
  - destruct HN as [H1 H2]. destruct v as [| | | | | | | | | | |i l]; try reflexivity. unfold js. cbn. destruct i as [|[|]]; try reflexivity; destruct l as [|x [|]]; try reflexivity.
    + pose proof (IH x t1 ltac:(cbn in HL; lia) H1) as HX. unfold js in HX. destruct (ser_ x t1), (ser_ x (erase t1)); cbn; first [reflexivity|now rewrite HX|now rewrite <- HX].
    + pose proof (IH x t2 ltac:(cbn in HL; lia) H2) as HX. unfold js in HX. destruct (ser_ x t2), (ser_ x (erase t2)); cbn; first [reflexivity|now rewrite HX|now rewrite <- HX].
  - destruct v as [| | | | | | | | | | |i l]; try reflexivity. unfold js. cbn. destruct i as [|[|[|]]]; try reflexivity; destruct l as [|x [|]]; try reflexivity.
    all: pose proof (IH x t ltac:(cbn in HL; lia) HN) as HX; unfold js in HX; destruct (ser_ x t), (ser_ x (erase t)); cbn; first [reflexivity|now rewrite HX|now rewrite <- HX].
  - destruct v as [| | | | | | |l| | | |]; try reflexivity. destruct l as [|x [|y [|]]]; try reflexivity.
    rewrite !js_range, (IH x t), (IH y t); auto; cbn in HL; lia.
  - destruct HN as [H1 H2]. destruct v as [| | | | | | | | | | |i l]; try reflexivity. unfold js. cbn. destruct i as [|[|]]; try reflexivity; destruct l as [|x [|]]; try reflexivity.
    + pose proof (IH x t1 ltac:(cbn in HL; lia) H1) as HX. unfold js in HX. destruct (ser_ x t1), (ser_ x (erase t1)); cbn; first [reflexivity|now rewrite HX|now rewrite <- HX].
    + pose proof (IH x t2 ltac:(cbn in HL; lia) H2) as HX. unfold js in HX. destruct (ser_ x t2), (ser_ x (erase t2)); cbn; first [reflexivity|now rewrite HX|now rewrite <- HX].
  - destruct v; try reflexivity. now rewrite !js_array_vec, HS.
  - unfold js. rewrite ser_fwd. apply IHt, HN.
  - rewrite <- (IHt HN). unfold js. rewrite ser_weak. destruct v; try (destruct (ser_ _ t); reflexivity).
    assert (HX : forall t, ser_ RDead t = None) by (induction t0; cbn; auto; now destruct k). now rewrite HX.
  - reflexivity.
Qed.
End Erase.
