(** Validation attributes: what the inserted keywords mean, and which attribute wins. *)
From Coq Require Import String Ascii List ZArith NArith Bool Lia.
From Verif Require Import Json JsonFacts Utf8 SchemaApi Validate ValidateFacts ValidateKw Private RegexSyntax
  ValidationAttrs.
Import ListNotations.
Open Scope string_scope.

(** ** Specification *)
(** The schema lists the instance type [t]. *)
Definition lists_type (t : string) (s : json) : Prop :=
  exists m, s = JObj m /\
    (mget "type" m = Some (JStr t) \/ exists l, mget "type" m = Some (JArr l) /\ In (JStr t) l).

Definition matches_type (rt : string) (s : json) : Prop :=
  lists_type rt s \/ (rt = "number" /\ lists_type "integer" s).

Lemma has_type_lists t s : has_type t s = true <-> lists_type t s.
Proof.
  unfold has_type, lists_type, s_get. destruct s; cbn;
    try (split; [discriminate|intros (m & H & _); discriminate]).
  split.
  - intros H. exists m. split; [reflexivity|]. destruct (mget "type" m) as [[]|]; try discriminate.
    + apply String.eqb_eq in H. subst. auto.
    + right. exists l. split; [reflexivity|]. apply existsb_exists in H as (x & Hx & He).
      destruct x; try discriminate. apply String.eqb_eq in He. now subst.
  - intros (m' & HE & H). injection HE as <-. destruct H as [->|(l & -> & H)].
    + apply String.eqb_refl.
    + apply existsb_exists. exists (JStr t). split; [exact H|apply String.eqb_refl].
Qed.

Lemma insert_validation_cases s rt key x :
  (matches_type rt s /\ insert_validation s rt key x = insert key x s)
  \/ (~ matches_type rt s /\ insert_validation s rt key x = s).
Proof.
  unfold insert_validation, matches_type.
  destruct (has_type rt s) eqn:H1; cbn [orb].
  - left. split; [left; now apply has_type_lists|reflexivity].
  - assert (N1 : ~ lists_type rt s) by (rewrite <- has_type_lists; congruence).
    destruct (String.eqb_spec rt "number") as [->|N]; cbn [andb].
    + destruct (has_type "integer" s) eqn:H2.
      * left. split; [right; split; [reflexivity|now apply has_type_lists]|reflexivity].
      * right. split; [|reflexivity]. intros [H|[_ H]]; [auto|]. apply has_type_lists in H. congruence.
    + right. split; [|reflexivity]. intros [H|[H _]]; auto.
Qed.

(** ** Meaning *)
(** The keyword says nothing about instances of other types. *)
Definition kind_is (rt : string) (v : json) : bool :=
  type_ok rt v.

Section Sem.
Variable E : env.

Definition typed (m : map_t) : Prop :=
  (exists t, mget "type" m = Some (JStr t)) \/ (exists l, mget "type" m = Some (JArr l)).

Lemma type_matches m v rt : typed m -> valid D2020 E (JObj m) v = true ->
  In rt ["string"; "array"; "number"] -> type_ok rt v = true -> matches_type rt (JObj m).
Proof.
  intros HT HV HR HK. rewrite valid_kw in HV. unfold matches_type, lists_type.
  assert (HM : forall t, type_ok t v = true -> t = rt \/ (rt = "number" /\ t = "integer")).
  { intros t Ht. cbn in HR. destruct v as [| |n| | |]; cbn in *; destruct HR as [<-|[<-|[<-|[]]]]; cbn in HK; try discriminate;
      try (apply String.eqb_eq in Ht; subst; auto; discriminate).
    destruct (String.eqb_spec t "number"); [auto|]. destruct (String.eqb_spec t "integer"); [auto|discriminate]. }
  destruct HT as [[t Ht]|[l Hl]].
  - specialize (HV _ _ Ht). unfold kw in HV. cbn [String.eqb Ascii.eqb Bool.eqb chk_type d_nullable D2020 andb] in HV.
    rewrite orb_false_r in HV. destruct (HM t HV) as [->|[-> ->]]; [left|right; split; [reflexivity|]]; exists m; auto.
  - specialize (HV _ _ Hl). unfold kw in HV. cbn [String.eqb Ascii.eqb Bool.eqb chk_type d_nullable D2020 andb] in HV.
    rewrite orb_false_r in HV. apply existsb_exists in HV as (x & Hx & Ht). destruct x as [| | |t| |]; try discriminate.
    destruct (HM t Ht) as [->|[-> ->]]; [left|right; split; [reflexivity|]]; exists m; split; auto; right; eauto.
Qed.

(** One inserted keyword *)
Lemma insert_kw m key x v : ~ In key ctx -> mget key m = None ->
  valid D2020 E (insert key x (JObj m)) v = valid D2020 E (JObj m) v && kw E m key x v.
Proof.
  intros HC HN. unfold insert. cbn [ensure_obj ensure_object]. rewrite valid_set by exact HC.
  rewrite andb_comm. f_equal. apply valid_lookup. intros k. rewrite mget_mdel.
  destruct (String.eqb_spec k key); congruence.
Qed.

Lemma insert_validation_sem m rt key x v :
  typed m -> In rt ["string"; "array"; "number"] ->
  In key assertion_names -> mget key m = None ->
  (type_ok rt v = false -> assertion E key x v = true) ->
  valid D2020 E (insert_validation (JObj m) rt key x) v
  = valid D2020 E (JObj m) v && assertion E key x v.
Proof.
  intros HT HR HK HN HV.
  assert (HC : ~ In key ctx).
  { intros H. cbn in HK, H. repeat (destruct HK as [<-|HK]; [intuition discriminate|]). exact HK. }
  assert (HW : kw E m key x v = assertion E key x v).
  { cbn in HK. repeat (destruct HK as [<-|HK]; [reflexivity|]). destruct HK. }
  destruct (insert_validation_cases (JObj m) rt key x) as [[HM ->]|[HM ->]].
  - rewrite insert_kw by assumption. now rewrite HW.
  - destruct (valid D2020 E (JObj m) v) eqn:EV; [|reflexivity]. symmetry. apply HV.
    destruct (type_ok rt v) eqn:ET; [|reflexivity]. exfalso. apply HM.
    eapply type_matches; eauto.
Qed.

Definition map_of (s : json) : map_t := match s with JObj m => m | _ => [] end.

Lemma insert_validation_obj m rt key x :
  exists m', insert_validation (JObj m) rt key x = JObj m'
    /\ (forall k, k <> key -> mget k m' = mget k m)
    /\ (mget key m' = mget key m \/ mget key m' = Some x).
Proof.
  destruct (insert_validation_cases (JObj m) rt key x) as [[HM ->]|[HM ->]].
  - unfold insert. cbn [ensure_obj ensure_object]. eexists. split; [reflexivity|]. split.
    + intros k Hk. rewrite mget_mset. destruct (String.eqb_spec k key); congruence.
    + right. now rewrite mget_mset, String.eqb_refl.
  - eexists. split; [reflexivity|]. auto.
Qed.

(** ** The whole attribute *)
Definition len_ok (l : length_or_range) (n : Z) : bool :=
  match orelse (lr_min l) (lr_equal l) with Some (JNum b) => num_leb b (NInt n) | _ => true end
  && match orelse (lr_max l) (lr_equal l) with Some (JNum b) => num_leb (NInt n) b | _ => true end.
Definition range_ok (l : length_or_range) (n : number) : bool :=
  match orelse (lr_min l) (lr_equal l) with Some (JNum b) => num_leb b n | _ => true end
  && match orelse (lr_max l) (lr_equal l) with Some (JNum b) => num_leb n b | _ => true end.
Definition opt_ok {A} (f : A -> bool) (o : option A) : bool := match o with Some a => f a | None => true end.

(** The instance meets the constraints of the attribute. *)
Fixpoint satisfies (a : vattrs) (v : json) : bool :=
  opt_ok (fun f => e_fmt E f v) (va_format a)
  && match v with
     | JStr s =>
         opt_ok (fun l => len_ok l (char_count s)) (va_length a)
         && opt_ok (fun p => e_rx E p s) (orelse (va_regex a) (va_pattern a))
         && opt_ok (fun t => e_rx E (escape t) s) (va_contains a)
     | JNum n => opt_ok (fun l => range_ok l n) (va_range a)
     | JArr l =>
         opt_ok (fun r => len_ok r (Z.of_nat (List.length l))) (va_length a)
         && match va_inner a with Some i => forallb (satisfies i) l | None => true end
     | _ => true
     end.

Definition validation_keywords : list string :=
  ["minLength"; "maxLength"; "minItems"; "maxItems"; "minimum"; "maximum"; "pattern"; "format"].

Definition fresh (m : map_t) : Prop := forall k, In k validation_keywords -> mget k m = None.

(** Schemas the attribute is meant for: typed, without these keywords; for [inner], an array whose
    items are such a schema. *)
Fixpoint ready (a : vattrs) (s : json) : Prop :=
  match s with
  | JObj m =>
      typed m /\ fresh m
      /\ (va_contains a = None \/ (va_regex a = None /\ va_pattern a = None))
      /\ match va_inner a with
         | Some i => mget "prefixItems" m = None
                     /\ exists it, mget "items" m = Some it /\ ready i it
         | None => True
         end
  | _ => False
  end.

(** The bookkeeping of one step: the result is an object that differs in the given keys only. *)
Definition stepped (ks : list string) (m m' : map_t) : Prop := forall k, ~ In k ks -> mget k m' = mget k m.

Lemma typed_step ks m m' : stepped ks m m' -> ~ In "type" ks -> typed m -> typed m'.
Proof. intros H N [[t Ht]|[l Hl]]; [left; exists t|right; exists l]; now rewrite (H "type" N). Qed.

Lemma insert_step m rt key x :
  exists m', insert_validation (JObj m) rt key x = JObj m' /\ stepped [key] m m'.
Proof.
  destruct (insert_validation_obj m rt key x) as (m' & H1 & H2 & _). exists m'. split; [exact H1|].
  intros k Hk. apply H2. intros ->. apply Hk. now left.
Qed.

Definition lr_assert (l : length_or_range) (kmin kmax : string) (v : json) : bool :=
  opt_ok (fun x => assertion E kmin x v) (orelse (lr_min l) (lr_equal l))
  && opt_ok (fun x => assertion E kmax x v) (orelse (lr_max l) (lr_equal l)).

Lemma length_step m l rt suffix v :
  typed m -> In rt ["string"; "array"; "number"] ->
  In ("min" ++ suffix) assertion_names -> In ("max" ++ suffix) assertion_names ->
  ("min" ++ suffix <> "type") -> ("max" ++ suffix <> "type") -> ("min" ++ suffix <> "max" ++ suffix) ->
  mget ("min" ++ suffix) m = None -> mget ("max" ++ suffix) m = None ->
  (forall x, type_ok rt v = false -> assertion E ("min" ++ suffix) x v = true) ->
  (forall x, type_ok rt v = false -> assertion E ("max" ++ suffix) x v = true) ->
  exists m', add_length_or_range l rt suffix (JObj m) = JObj m'
    /\ stepped ["min" ++ suffix; "max" ++ suffix] m m' /\ typed m'
    /\ valid D2020 E (JObj m') v = valid D2020 E (JObj m) v && lr_assert l ("min" ++ suffix) ("max" ++ suffix) v.
Proof.
  intros HT HR H1 H2 N1 N2 N3 F1 F2 V1 V2. unfold add_length_or_range, lr_assert.
  set (kmin := "min" ++ suffix) in *. set (kmax := "max" ++ suffix) in *. clearbody kmin kmax.
  assert (HA : exists m1, match orelse (lr_min l) (lr_equal l) with
                          | Some x => insert_validation (JObj m) rt kmin x | None => JObj m end = JObj m1
     /\ stepped [kmin] m m1 /\ valid D2020 E (JObj m1) v
        = valid D2020 E (JObj m) v && opt_ok (fun x => assertion E kmin x v) (orelse (lr_min l) (lr_equal l))).
  { destruct (orelse (lr_min l) (lr_equal l)) as [x|].
    - destruct (insert_step m rt kmin x) as (m1 & HE & HS). exists m1. repeat split; auto.
      rewrite <- HE. cbn [opt_ok]. apply insert_validation_sem; auto.
    - exists m. repeat split; auto. now rewrite andb_true_r. }
  destruct HA as (m1 & -> & S1 & V1').
  assert (T1 : typed m1) by (apply (typed_step [kmin] m); auto; intros [HH|[]]; congruence).
  assert (F2' : mget kmax m1 = None) by (rewrite S1; auto; intros [HH|[]]; congruence).
  destruct (orelse (lr_max l) (lr_equal l)) as [x|].
  - destruct (insert_step m1 rt kmax x) as (m2 & HE & HS). exists m2. repeat split; auto.
    + intros k Hk. rewrite HS, S1; auto; intros [HH|[]]; apply Hk; subst; cbn; auto.
    + apply (typed_step [kmax] m1); auto. intros [HH|[]]. congruence.
    + rewrite <- HE. cbn [opt_ok]. rewrite (insert_validation_sem m1 rt kmax x v); auto.
      now rewrite V1', andb_assoc.
  - exists m1. repeat split; auto.
    + intros k Hk. apply S1. intros [HH|[]]. apply Hk. subst. cbn. auto.
    + now rewrite V1', !andb_true_r.
Qed.

Lemma in_len k : In k ["minLength"; "maxLength"; "minItems"; "maxItems"; "minimum"; "maximum"; "pattern"; "format"] ->
  In k validation_keywords.
Proof. auto. Qed.

Ltac notin := intros HH; cbn in HH; repeat (destruct HH as [HH|HH]; [discriminate|]); exact HH.

(** Everything but [inner]. *)
Definition add_outer (a : vattrs) (s : json) : json :=
  let s := match va_length a with
           | Some l => add_length_or_range l "array" "Items" (add_length_or_range l "string" "Length" s)
           | None => s end in
  let s := match va_range a with Some l => add_length_or_range l "number" "imum" s | None => s end in
  let s := match orelse (va_regex a) (va_pattern a) with
           | Some p => insert_validation s "string" "pattern" (JStr p) | None => s end in
  let s := match va_contains a with Some t => must_contain s t | None => s end in
  match va_format a with Some f => insert "format" (JStr f) s | None => s end.

Definition sat_outer (a : vattrs) (v : json) : bool :=
  opt_ok (fun f => e_fmt E f v) (va_format a)
  && match v with
     | JStr s =>
         opt_ok (fun l => len_ok l (char_count s)) (va_length a)
         && opt_ok (fun p => e_rx E p s) (orelse (va_regex a) (va_pattern a))
         && opt_ok (fun t => e_rx E (escape t) s) (va_contains a)
     | JNum n => opt_ok (fun l => range_ok l n) (va_range a)
     | JArr l => opt_ok (fun r => len_ok r (Z.of_nat (List.length l))) (va_length a)
     | _ => true
     end.

Lemma lr_assert_length l v :
  lr_assert l "minLength" "maxLength" v = match v with JStr s => len_ok l (char_count s) | _ => true end.
Proof.
  unfold lr_assert, len_ok. destruct (orelse (lr_min l) (lr_equal l)) as [[]|],
    (orelse (lr_max l) (lr_equal l)) as [[]|]; destruct v; reflexivity.
Qed.
Lemma lr_assert_items l v :
  lr_assert l "minItems" "maxItems" v = match v with JArr x => len_ok l (Z.of_nat (List.length x)) | _ => true end.
Proof.
  unfold lr_assert, len_ok. destruct (orelse (lr_min l) (lr_equal l)) as [[]|],
    (orelse (lr_max l) (lr_equal l)) as [[]|]; destruct v; reflexivity.
Qed.
Lemma lr_assert_range l v :
  lr_assert l "minimum" "maximum" v = match v with JNum n => range_ok l n | _ => true end.
Proof.
  unfold lr_assert, range_ok. destruct (orelse (lr_min l) (lr_equal l)) as [[]|],
    (orelse (lr_max l) (lr_equal l)) as [[]|]; destruct v; reflexivity.
Qed.

Lemma vac_str k x v : In k ["minLength"; "maxLength"; "pattern"] -> type_ok "string" v = false -> assertion E k x v = true.
Proof. intros [<-|[<-|[<-|[]]]] H; destruct v; try discriminate; cbn; now destruct x. Qed.
Lemma vac_arr k x v : In k ["minItems"; "maxItems"] -> type_ok "array" v = false -> assertion E k x v = true.
Proof. intros [<-|[<-|[]]] H; destruct v; try discriminate; cbn; now destruct x. Qed.
Lemma vac_num k x v : In k ["minimum"; "maximum"] -> type_ok "number" v = false -> assertion E k x v = true.
Proof. intros [<-|[<-|[]]] H; destruct v; try discriminate; cbn; now destruct x. Qed.

Ltac side f g := cbn [append];
  first [assumption | discriminate | solve [in_names]
        | intros; apply f; solve [assumption|in_names] | intros; apply g; solve [assumption|in_names]].

Lemma outer_sem a m v : typed m -> fresh m ->
  (va_contains a = None \/ (va_regex a = None /\ va_pattern a = None)) ->
  exists m', add_outer a (JObj m) = JObj m' /\ stepped validation_keywords m m'
    /\ valid D2020 E (JObj m') v = valid D2020 E (JObj m) v && sat_outer a v.
Proof.
  intros HT HF HX. unfold add_outer.
  assert (H1 : exists m1, match va_length a with
     | Some l => add_length_or_range l "array" "Items" (add_length_or_range l "string" "Length" (JObj m))
     | None => JObj m end = JObj m1
     /\ stepped ["minLength"; "maxLength"; "minItems"; "maxItems"] m m1 /\ typed m1
     /\ valid D2020 E (JObj m1) v = valid D2020 E (JObj m) v
        && opt_ok (fun l => lr_assert l "minLength" "maxLength" v && lr_assert l "minItems" "maxItems" v) (va_length a)).
  { destruct (va_length a) as [l|]; [|exists m; repeat split; auto; cbn [opt_ok]; now rewrite andb_true_r].
    assert (A1 : mget "minLength" m = None) by (apply HF; in_names).
    assert (A2 : mget "maxLength" m = None) by (apply HF; in_names).
    assert (A3 : mget "minItems" m = None) by (apply HF; in_names).
    assert (A4 : mget "maxItems" m = None) by (apply HF; in_names).
    destruct (length_step m l "string" "Length" v) as (m1 & E1 & S1 & T1 & V1);
      [side (vac_str "minLength") (vac_str "maxLength")..|]. rewrite E1. cbn [append] in S1.
    assert (A5 : mget "minItems" m1 = None) by (rewrite S1; [assumption|notin]).
    assert (A6 : mget "maxItems" m1 = None) by (rewrite S1; [assumption|notin]).
    destruct (length_step m1 l "array" "Items" v) as (m2 & E2 & S2 & T2 & V2);
      [side (vac_arr "minItems") (vac_arr "maxItems")..|]. rewrite E2. cbn [append] in S2.
    exists m2. split; [reflexivity|]. split; [|split; [exact T2|]].
    - intros k Hk. rewrite S2, S1; auto; intros HH; apply Hk; cbn in *; intuition.
    - rewrite V2, V1. cbn [opt_ok append]. now rewrite andb_assoc. }
  destruct H1 as (m1 & -> & S1 & T1 & V1).
  assert (H2 : exists m2, match va_range a with
     | Some l => add_length_or_range l "number" "imum" (JObj m1) | None => JObj m1 end = JObj m2
     /\ stepped ["minimum"; "maximum"] m1 m2 /\ typed m2
     /\ valid D2020 E (JObj m2) v = valid D2020 E (JObj m1) v
        && opt_ok (fun l => lr_assert l "minimum" "maximum" v) (va_range a)).
  { destruct (va_range a) as [l|]; [|exists m1; repeat split; auto; cbn [opt_ok]; now rewrite andb_true_r].
    assert (A5 : mget "minimum" m1 = None) by (rewrite S1; [apply HF; in_names|notin]).
    assert (A6 : mget "maximum" m1 = None) by (rewrite S1; [apply HF; in_names|notin]).
    destruct (length_step m1 l "number" "imum" v) as (m2 & E2 & S2 & T2 & V2);
      [side (vac_num "minimum") (vac_num "maximum")..|]. rewrite E2. cbn [append] in S2.
    exists m2. repeat split; auto. }
  destruct H2 as (m2 & -> & S2 & T2 & V2).
  assert (FP : mget "pattern" m2 = None).
  { rewrite S2, S1; [apply HF; in_names|notin|notin]. }
  assert (H3 : exists m3, match orelse (va_regex a) (va_pattern a) with
     | Some p => insert_validation (JObj m2) "string" "pattern" (JStr p) | None => JObj m2 end = JObj m3
     /\ stepped ["pattern"] m2 m3 /\ typed m3
     /\ (orelse (va_regex a) (va_pattern a) = None -> m3 = m2)
     /\ valid D2020 E (JObj m3) v = valid D2020 E (JObj m2) v
        && opt_ok (fun p => assertion E "pattern" (JStr p) v) (orelse (va_regex a) (va_pattern a))).
  { destruct (orelse (va_regex a) (va_pattern a)) as [p|];
      [|exists m2; repeat split; auto; cbn [opt_ok]; now rewrite andb_true_r].
    destruct (insert_step m2 "string" "pattern" (JStr p)) as (m3 & HE & S3). exists m3.
    split; [exact HE|]. split; [exact S3|]. split; [apply (typed_step ["pattern"] m2); auto; notin|].
    split; [discriminate|]. rewrite <- HE. cbn [opt_ok]. apply insert_validation_sem;
      [assumption|in_names|in_names|assumption|apply vac_str; in_names]. }
  destruct H3 as (m3 & -> & S3 & T3 & X3 & V3).
  assert (H4 : exists m4, match va_contains a with Some t => must_contain (JObj m3) t | None => JObj m3 end = JObj m4
     /\ stepped ["pattern"] m3 m4 /\ typed m4
     /\ valid D2020 E (JObj m4) v = valid D2020 E (JObj m3) v
        && opt_ok (fun t => assertion E "pattern" (JStr (escape t)) v) (va_contains a)).
  { destruct (va_contains a) as [t|] eqn:EC;
      [|exists m3; repeat split; auto; cbn [opt_ok]; now rewrite andb_true_r].
    destruct HX as [HX|[HX1 HX2]]; [discriminate|].
    assert (m3 = m2) as -> by (apply X3; now rewrite HX1, HX2).
    unfold must_contain. destruct (insert_step m2 "string" "pattern" (JStr (escape t))) as (m4 & HE & S4). exists m4.
    split; [exact HE|]. split; [exact S4|]. split; [apply (typed_step ["pattern"] m2); auto; notin|].
    rewrite <- HE. cbn [opt_ok]. apply insert_validation_sem;
      [assumption|in_names|in_names|assumption|apply vac_str; in_names]. }
  destruct H4 as (m4 & -> & S4 & T4 & V4).
  assert (FF : mget "format" m4 = None).
  { rewrite S4, S3, S2, S1; [apply HF; in_names|notin|notin|notin|notin]. }
  assert (HS4 : stepped validation_keywords m m4).
  { intros k Hk. rewrite S4, S3, S2, S1; auto; intros HH; apply Hk; cbn in *; intuition. }
  exists (match va_format a with Some f => mset "format" (JStr f) m4 | None => m4 end).
  split; [destruct (va_format a); reflexivity|]. split.
  { intros k Hk. destruct (va_format a); [|now apply HS4]. rewrite mget_mset.
    destruct (String.eqb_spec k "format") as [->|]; [exfalso; apply Hk; in_names|now apply HS4]. }
  assert (V5 : valid D2020 E (JObj match va_format a with Some f => mset "format" (JStr f) m4 | None => m4 end) v
     = valid D2020 E (JObj m4) v && opt_ok (fun f => e_fmt E f v) (va_format a)).
  { destruct (va_format a) as [f|]; cbn [opt_ok]; [|now rewrite andb_true_r].
    change (JObj (mset "format" (JStr f) m4)) with (insert "format" (JStr f) (JObj m4)).
    rewrite insert_kw; [reflexivity|notin|exact FF]. }
  rewrite V5, V4, V3, V2, V1. unfold sat_outer.
  set (b := valid D2020 E (JObj m) v). set (f := opt_ok (fun f => e_fmt E f v) (va_format a)).
  assert (L : opt_ok (fun l => lr_assert l "minLength" "maxLength" v && lr_assert l "minItems" "maxItems" v) (va_length a)
     = match v with JStr s => opt_ok (fun l => len_ok l (char_count s)) (va_length a)
       | JArr x => opt_ok (fun l => len_ok l (Z.of_nat (List.length x))) (va_length a) | _ => true end).
  { destruct (va_length a) as [l|]; cbn [opt_ok]; [|now destruct v]. rewrite lr_assert_length, lr_assert_items.
    destruct v; rewrite ?andb_true_r; reflexivity. }
  assert (R : opt_ok (fun l => lr_assert l "minimum" "maximum" v) (va_range a)
     = match v with JNum n => opt_ok (fun l => range_ok l n) (va_range a) | _ => true end).
  { destruct (va_range a) as [l|]; cbn [opt_ok]; [|now destruct v]. rewrite lr_assert_range. now destruct v. }
  assert (P : forall o g, opt_ok (fun p => assertion E "pattern" (JStr (g p)) v) o
     = match v with JStr s => opt_ok (fun p : string => e_rx E (g p) s) o | _ => true end).
  { intros [p|] g; cbn [opt_ok]; [|now destruct v]. destruct v; reflexivity. }
  rewrite L, R, (P _ (fun p => p)), P. clearbody b f. clear.
  destruct v; repeat match goal with |- context [opt_ok ?g ?o] => destruct (opt_ok g o) end;
    destruct b, f; reflexivity.
Qed.

Lemma add_mutators_unfold a s :
  add_mutators a s = match va_inner a with
                     | Some i => apply_inner_validation (add_outer a s) (add_mutators i)
                     | None => add_outer a s end.
Proof. destruct a as [? ? ? ? ? ? ? [i|]]; reflexivity. Qed.

Lemma satisfies_unfold a v :
  satisfies a v = sat_outer a v && match v, va_inner a with JArr l, Some i => forallb (satisfies i) l | _, _ => true end.
Proof.
  destruct a as [a1 a2 a3 a4 a5 a6 a7 [i|]]; unfold sat_outer; cbn [satisfies va_inner va_format va_length va_range va_regex va_pattern va_contains];
    destruct v; rewrite ?andb_true_r, ?andb_assoc; reflexivity.
Qed.

Lemma ready_unfold a s : ready a s ->
  exists m, s = JObj m /\ typed m /\ fresh m
      /\ (va_contains a = None \/ (va_regex a = None /\ va_pattern a = None))
      /\ match va_inner a with
         | Some i => mget "prefixItems" m = None /\ exists it, mget "items" m = Some it /\ ready i it
         | None => True
         end.
Proof. destruct a, s; cbn; try tauto. intros H. exists m. split; [reflexivity|exact H]. Qed.

Theorem add_mutators_sem : forall a s v, ready a s ->
  valid D2020 E (add_mutators a s) v = valid D2020 E s v && satisfies a v.
Proof.
  fix IH 1. intros a s v HR. rewrite add_mutators_unfold, satisfies_unfold.
  destruct (ready_unfold a s HR) as (m & -> & HT & HF & HX & HI).
  destruct (outer_sem a m v HT HF HX) as (m' & -> & HS & HV).
  destruct a as [len rng pat rex con rq fmt [i|]]; cbn [va_inner] in *.
  2:{ rewrite HV. destruct v; now rewrite ?andb_true_r. }
  destruct HI as (HP & it & Hit & HRi).
  assert (Hit' : mget "items" m' = Some it) by (rewrite HS; [exact Hit|notin]).
  assert (HP' : mget "prefixItems" m' = None) by (rewrite HS; [exact HP|notin]).
  assert (HSc : is_schema it = true) by (destruct i; destruct it; cbn in HRi; tauto || reflexivity).
  unfold apply_inner_validation, s_get. rewrite Hit', HSc. unfold s_get_mut_set, mhas. rewrite Hit'. cbn [fst].
  rewrite (valid_lookup E _ (mset "items" (add_mutators i it) m')).
  2:{ intros k. rewrite mget_mset. clear - Hit' k.
      assert (HG : forall (f : json -> json) mm, mget k (mupd "items" f mm)
         = if String.eqb k "items" then option_map f (mget k mm) else mget k mm).
      { intros f. induction mm as [|[k0 x] mm IHm]; cbn [mupd mget]; [now destruct (String.eqb k "items")|].
        destruct (String.eqb_spec "items" k0) as [<-|H]; cbn [mget].
        - destruct (String.eqb k "items"); reflexivity.
        - rewrite IHm. destruct (String.eqb_spec k k0) as [->|]; [|reflexivity].
          destruct (String.eqb_spec k0 "items"); congruence. }
      rewrite HG. destruct (String.eqb_spec k "items") as [Hk|]; [now rewrite Hk, Hit'|reflexivity]. }
  rewrite valid_set by notin.
  rewrite (valid_out E "items" m') in HV by notin. unfold kw_all in HV. rewrite Hit' in HV.
  assert (HK : forall x, kw E m' "items" x v = match v with JArr l => forallb (valid D2020 E x) l | _ => true end).
  { intros x. unfold kw. cbn [String.eqb Ascii.eqb Bool.eqb existsb assertion_names orb]. rewrite HP'. reflexivity. }
  rewrite HK in *. destruct v as [| | | |l|]; rewrite ?andb_true_r; try exact HV.
  rewrite andb_assoc, <- HV.
  assert (HL : forallb (valid D2020 E (add_mutators i it)) l
             = forallb (valid D2020 E it) l && forallb (satisfies i) l).
  { clear - IH HRi. induction l as [|x l IHl]; [reflexivity|]. cbn [forallb]. rewrite (IH i it x HRi), IHl.
    destruct (valid D2020 E it x), (satisfies i x), (forallb (valid D2020 E it) l), (forallb (satisfies i) l); reflexivity. }
  rewrite HL.
  destruct (forallb (valid D2020 E it) l), (forallb (satisfies i) l), (valid D2020 E (JObj (mdel "items" m')) (JArr l)); reflexivity.
Qed.

End Sem.
