(** Collecting validation attributes: which item wins, and which combinations are excluded. *)
From Coq Require Import String Ascii List ZArith Bool Lia.
From Verif Require Import Json SchemaApi Private RegexSyntax ValidationAttrs.
Import ListNotations.
Open Scope string_scope.

(** ** Specification: the first item of a kind, in the order schemars, validate, garde. *)
Definition length_item (m : vmeta) : option length_or_range := match m with MLength l => l | _ => None end.
Definition range_item (m : vmeta) : option length_or_range := match m with MRange l => l | _ => None end.
Fixpoint first_some {A B} (f : A -> option B) (l : list A) : option B :=
  match l with [] => None | x :: t => match f x with Some b => Some b | None => first_some f t end end.

(** At most one of pattern, regex and contains, at each level. *)
Definition set_count (a : vattrs) : nat :=
  (if is_set (va_pattern a) then 1 else 0) + (if is_set (va_regex a) then 1 else 0)
  + (if is_set (va_contains a) then 1 else 0).
Fixpoint exclusive (a : vattrs) : Prop :=
  set_count a <= 1 /\ match va_inner a with Some i => exclusive i | None => True end.

(** ** Proofs *)
Lemma first_some_app {A B} (f : A -> option B) l1 l2 :
  first_some f (l1 ++ l2) = orelse (first_some f l1) (first_some f l2).
Proof. induction l1 as [|x l1 IH]; [reflexivity|]. cbn. destruct (f x); auto. Qed.

Lemma process_length t ms : forall acc,
  va_length (fst (process_attr t ms acc)) = orelse (va_length (fst acc)) (first_some length_item ms).
Proof.
  induction ms as [|m ms IH]; intros [a e]; cbn [process_attr fst snd].
  - cbn. now destruct (va_length a).
  - assert (H : match process_meta t m a with
                | Some (a', _) => va_length a' = orelse (va_length a) (length_item m)
                | None => length_item m = None end).
    { destruct m; cbn [process_meta length_item].
      - destruct (va_format a); [now destruct (va_length a)|].
        destruct (match t with Validate => true | _ => path_only end); cbn; now destruct (va_length a).
      - destruct (va_length a) as [l0|] eqn:EL; cbn; [now rewrite EL|reflexivity].
      - destruct (is_set (va_range a)); cbn; now destruct (va_length a).
      - destruct (va_required a); [cbn; now destruct (va_length a)|]. destruct path_only; cbn; now destruct (va_length a).
      - destruct t; try reflexivity; destruct (some_any (va_pattern a) (va_regex a) (va_contains a)); cbn; now destruct (va_length a).
      - destruct t; try reflexivity; destruct (some_any (va_pattern a) (va_regex a) (va_contains a)); cbn; now destruct (va_length a).
      - destruct (some_any (va_pattern a) (va_regex a) (va_contains a)); cbn; now destruct (va_length a).
      - destruct t; try reflexivity; (destruct items; [|cbn; now destruct (va_length a)]);
          match goal with |- context [let '(_, _) := ?x in _] => destruct x end;
          cbn; now destruct (va_length a). }
    destruct (process_meta t m a) as [[a' e']|]; rewrite IH; cbn [fst first_some].
    + rewrite H. now destruct (va_length a), (length_item m).
    + now rewrite H.
Qed.

Lemma process_range t ms : forall acc,
  va_range (fst (process_attr t ms acc)) = orelse (va_range (fst acc)) (first_some range_item ms).
Proof.
  induction ms as [|m ms IH]; intros [a e]; cbn [process_attr fst snd].
  - cbn. now destruct (va_range a).
  - assert (H : match process_meta t m a with
                | Some (a', _) => va_range a' = orelse (va_range a) (range_item m)
                | None => range_item m = None end).
    { destruct m; cbn [process_meta range_item].
      - destruct (va_format a); [now destruct (va_range a)|].
        destruct (match t with Validate => true | _ => path_only end); cbn; now destruct (va_range a).
      - destruct (is_set (va_length a)); cbn; now destruct (va_range a).
      - destruct (va_range a) as [l0|] eqn:EL; cbn; [now rewrite EL|reflexivity].
      - destruct (va_required a); [cbn; now destruct (va_range a)|]. destruct path_only; cbn; now destruct (va_range a).
      - destruct t; try reflexivity; destruct (some_any (va_pattern a) (va_regex a) (va_contains a)); cbn; now destruct (va_range a).
      - destruct t; try reflexivity; destruct (some_any (va_pattern a) (va_regex a) (va_contains a)); cbn; now destruct (va_range a).
      - destruct (some_any (va_pattern a) (va_regex a) (va_contains a)); cbn; now destruct (va_range a).
      - destruct t; try reflexivity; (destruct items; [|cbn; now destruct (va_range a)]);
          match goal with |- context [let '(_, _) := ?x in _] => destruct x end;
          cbn; now destruct (va_range a). }
    destruct (process_meta t m a) as [[a' e']|]; rewrite IH; cbn [fst first_some].
    + rewrite H. now destruct (va_range a), (range_item m).
    + now rewrite H.
Qed.

Lemma exclusive_no : exclusive no_vattrs.
Proof. cbn. split; auto. Qed.

Lemma exclusive_same a a' : va_inner a' = va_inner a -> set_count a' <= 1 -> exclusive a -> exclusive a'.
Proof. destruct a, a'; cbn. intros ->. tauto. Qed.

Lemma exclusive_count a : exclusive a -> set_count a <= 1.
Proof. destruct a. intros [H _]. exact H. Qed.

Lemma some_any_none a : some_any (va_pattern a) (va_regex a) (va_contains a) = false ->
  va_pattern a = None /\ va_regex a = None /\ va_contains a = None.
Proof. destruct (va_pattern a), (va_regex a), (va_contains a); cbn; try discriminate; auto. Qed.

Fixpoint vmeta_ind' (P : vmeta -> Prop)
  (H1 : forall f b, P (MFormat f b)) (H2 : forall l, P (MLength l)) (H3 : forall l, P (MRange l))
  (H4 : forall b, P (MRequired b)) (H5 : forall p, P (MPattern p)) (H6 : forall p, P (MRegex p))
  (H7 : forall p, P (MContains p)) (H8 : P (MInner None)) (H9 : forall ms, Forall P ms -> P (MInner (Some ms)))
  (m : vmeta) : P m :=
  match m with
  | MFormat f b => H1 f b | MLength l => H2 l | MRange l => H3 l | MRequired b => H4 b
  | MPattern p => H5 p | MRegex p => H6 p | MContains p => H7 p
  | MInner None => H8
  | MInner (Some ms) =>
      H9 ms ((fix go (ms : list vmeta) : Forall P ms :=
                match ms with
                | [] => Forall_nil _
                | m :: ms' => Forall_cons _ (vmeta_ind' P H1 H2 H3 H4 H5 H6 H7 H8 H9 m) (go ms')
                end) ms)
  end.

Lemma process_meta_exclusive t : forall m a a' e,
  process_meta t m a = Some (a', e) -> exclusive a -> exclusive a'.
Proof.
  induction m as [f path_only|l|l|path_only|p|p|p| |ms IH] using vmeta_ind'; intros a a' e H HX;
    pose proof (exclusive_count a HX) as HC; cbn [process_meta] in H.
  - destruct (va_format a); [injection H as <- _; exact HX|].
    destruct (match t with Validate => true | _ => path_only end); injection H as <- _;
      [apply (exclusive_same a); auto|exact HX].
  - destruct (is_set (va_length a)); injection H as <- _; [exact HX|]. apply (exclusive_same a); auto.
  - destruct (is_set (va_range a)); injection H as <- _; [exact HX|]. apply (exclusive_same a); auto.
  - destruct (va_required a); [injection H as <- _; exact HX|].
    destruct path_only; injection H as <- _; [apply (exclusive_same a); auto|exact HX].
  - assert (HP : (if some_any (va_pattern a) (va_regex a) (va_contains a) then Some (a, clash t)
                  else Some (VAttrs (va_length a) (va_range a) p (va_regex a) (va_contains a)
                     (va_required a) (va_format a) (va_inner a), negb (is_set p))) = Some (a', e))
      by (destruct t; [exact H|discriminate|exact H]).
    destruct (some_any _ _ _) eqn:ES; injection HP as <- _; [exact HX|].
    apply some_any_none in ES as (E1 & E2 & E3). apply (exclusive_same a); auto. unfold set_count. cbn.
    rewrite E2, E3. destruct p; cbn; lia.
  - assert (HP : (if some_any (va_pattern a) (va_regex a) (va_contains a) then Some (a, clash t)
                  else Some (VAttrs (va_length a) (va_range a) (va_pattern a) p (va_contains a)
                     (va_required a) (va_format a) (va_inner a), negb (is_set p))) = Some (a', e))
      by (destruct t; [exact H|exact H|discriminate]).
    destruct (some_any _ _ _) eqn:ES; injection HP as <- _; [exact HX|].
    apply some_any_none in ES as (E1 & E2 & E3). apply (exclusive_same a); auto. unfold set_count. cbn.
    rewrite E1, E3. destruct p; cbn; lia.
  - destruct (some_any _ _ _) eqn:ES; injection H as <- _; [exact HX|].
    apply some_any_none in ES as (E1 & E2 & E3). apply (exclusive_same a); auto. unfold set_count. cbn.
    rewrite E1, E2. destruct p; cbn; lia.
  - destruct t; try discriminate; injection H as <- _; exact HX.
  - set (start := match va_inner a with Some i => i | None => no_vattrs end) in *.
    set (go := fix go (ms : list vmeta) (acc : vattrs * bool) {struct ms} : vattrs * bool :=
                 match ms with
                 | [] => acc
                 | m :: ms' => match process_meta t m (fst acc) with
                               | Some (a', e') => go ms' (a', snd acc || e') | None => go ms' acc end
                 end) in *.
    assert (HS : exclusive start).
    { unfold start. destruct a as [a1 a2 a3 a4 a5 a6 a7 [i|]]; cbn in *; [tauto|]. split; auto. }
    assert (HG : forall acc, exclusive (fst acc) -> exclusive (fst (go ms acc))).
    { clear - IH. induction IH as [|m ms HM _ IHms]; intros acc HA; [exact HA|]. cbn [go].
      destruct (process_meta t m (fst acc)) as [[a0 e0]|] eqn:EP; apply IHms; [|exact HA].
      cbn [fst]. exact (HM _ _ _ EP HA). }
    assert (HP : (let '(i, e) := go ms (start, false) in
              Some (VAttrs (va_length a) (va_range a) (va_pattern a) (va_regex a) (va_contains a)
                           (va_required a) (va_format a) (Some i), e)) = Some (a', e))
      by (destruct t; [exact H|discriminate|exact H]).
    specialize (HG (start, false) HS). destruct (go ms (start, false)) as [i e0]. injection HP as <- _.
    destruct a; cbn in *. split; [exact HC|exact HG].
Qed.

Lemma process_exclusive t ms : forall acc, exclusive (fst acc) -> exclusive (fst (process_attr t ms acc)).
Proof.
  induction ms as [|m ms IH]; intros [a e] H; [exact H|]. cbn [process_attr fst snd].
  destruct (process_meta t m a) as [[a' e']|] eqn:EP; apply IH; [|exact H].
  exact (process_meta_exclusive t m a a' e' EP H).
Qed.
