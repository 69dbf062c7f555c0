(** flatten: the merged schema says what both schemas say. *)
From Coq Require Import String Ascii List ZArith NArith Bool Lia.
From Verif Require Import Json JsonFacts Utf8 SchemaApi Validate ValidateFacts ValidateKw Transform Private PrivateProps.
Import ListNotations.
Open Scope string_scope.

(** Keywords whose meaning depends on neighbouring keywords. *)
Definition dependent_keywords : list string :=
  ["if"; "items"; "additionalProperties"; "unevaluatedProperties"].

Definition independent (m : map_t) : Prop := forall k, In k dependent_keywords -> mget k m = None.

(** What two schemas must look like to be merged keyword by keyword: common keywords have equal
    values, or are lists, or declare different properties. Annotations may differ. *)
Definition mergeable_at (k : string) (x1 x2 : json) : Prop :=
  if mem k ["required"; "allOf"] then (exists l1, x1 = JArr l1) /\ (exists l2, x2 = JArr l2)
  else if mem k ["properties"; "patternProperties"] then
    exists p1 p2, x1 = JObj p1 /\ x2 = JObj p2 /\ sorted_keys (map fst p1) = true /\ sorted_keys (map fst p2) = true
                  /\ forall n, In n (map fst p1) -> In n (map fst p2) -> False
  else if mem k ["oneOf"; "anyOf"] then True
  else x1 = x2 \/ ~ In k kws.

Definition list_or_absent (k : string) (m : map_t) : Prop :=
  mget k m = None \/ exists l, mget k m = Some (JArr l).

Record mergeable (m1 m2 : map_t) : Prop := {
  mg_ind1 : independent m1;
  mg_ind2 : independent m2;
  mg_at : forall k x1 x2, mget k m1 = Some x1 -> mget k m2 = Some x2 -> mergeable_at k x1 x2;
  mg_all1 : list_or_absent "allOf" m1;
  mg_all2 : list_or_absent "allOf" m2
}.

Section Flatten.
Variable E : env.

(** The keyword on its own *)
Definition kw1 (k : string) (x v : json) : bool := kw E [] k x v.

Lemma kw_alone m k x v : ~ In k dependent_keywords -> kw E m k x v = kw1 k x v.
Proof.
  intros H. unfold kw1, kw.
  repeat match goal with
  | |- (if ?b then _ else _) = (if ?b then _ else _) =>
      let Hb := fresh "Hb" in destruct b eqn:Hb;
      [try reflexivity; apply String.eqb_eq in Hb; subst k; exfalso; apply H; cbn; tauto|]
  end.
  reflexivity.
Qed.

Lemma valid_alone m v : independent m ->
  valid D2020 E (JObj m) v = true <-> forall k x, mget k m = Some x -> kw1 k x v = true.
Proof.
  intros HI. rewrite valid_kw. split; intros H k x Hx; specialize (H k x Hx).
  - rewrite kw_alone in H; [exact H|]. intros HD. rewrite HI in Hx by exact HD. discriminate.
  - rewrite kw_alone; [exact H|]. intros HD. rewrite HI in Hx by exact HD. discriminate.
Qed.

Lemma mem_In k l : mem k l = true <-> In k l.
Proof.
  unfold mem. rewrite existsb_exists. split.
  - intros (x & Hx & He). apply String.eqb_eq in He. now subst.
  - intros H. exists k. split; [exact H|apply String.eqb_refl].
Qed.

(** Values of list and map keywords *)
Lemma kw1_app k l1 l2 v : In k ["required"; "allOf"] ->
  kw1 k (JArr (l1 ++ l2)) v = kw1 k (JArr l1) v && kw1 k (JArr l2) v.
Proof.
  intros [<-|[<-|[]]].
  - unfold kw1, kw. cbn [String.eqb Ascii.eqb Bool.eqb existsb assertion_names orb assertion].
    destruct v; try reflexivity. apply forallb_app.
  - unfold kw1, kw. cbn [String.eqb Ascii.eqb Bool.eqb existsb assertion_names orb].
    unfold chk_all. cbn [arr_of sub_of s_arr]. now rewrite map_app, forallb_app.
Qed.

Lemma mget_app_disjoint {A} (p1 p2 : list (string * A)) k : NoDup (map fst p2) ->
  mget k (mappend p1 p2) = match mget k p2 with Some x => Some x | None => mget k p1 end.
Proof. intros H. now apply mget_mappend_NoDup. Qed.

Lemma mhas_In {A} k (p : list (string * A)) : mget k p <> None <-> In k (map fst p).
Proof.
  induction p as [|[k' x] p IH]; cbn; [tauto|]. destruct (String.eqb_spec k k') as [->|N].
  - split; [auto|discriminate].
  - rewrite IH. split; [auto|intros [?|?]; [congruence|auto]].
Qed.

Lemma kw1_props p1 p2 v : NoDup (map fst p1) -> NoDup (map fst p2) ->
  (forall n, In n (map fst p1) -> In n (map fst p2) -> False) ->
  kw1 "properties" (JObj (mappend p1 p2)) v = kw1 "properties" (JObj p1) v && kw1 "properties" (JObj p2) v.
Proof.
  intros N1 N2 HD. unfold kw1, kw. cbn [String.eqb Ascii.eqb Bool.eqb existsb assertion_names orb].
  rewrite !chk_props_ok. destruct v; try reflexivity. cbn [props_ok]. rename m into o.
  induction o as [|[k x] o IH]; [reflexivity|]. cbn [forallb fst snd]. rewrite IH, mget_app_disjoint by exact N2.
  destruct (mget k p2) as [s2|] eqn:E2; destruct (mget k p1) as [s1|] eqn:E1.
  - exfalso. apply (HD k); apply mhas_In; congruence.
  - destruct (valid D2020 E s2 x), (forallb (fun kx => match mget (fst kx) p1 with Some s => valid D2020 E s (snd kx) | None => true end) o); reflexivity.
  - now rewrite andb_assoc.
  - reflexivity.
Qed.

Lemma forallb_mappend (f : string * json -> bool) p1 p2 : NoDup (map fst p1) -> NoDup (map fst p2) ->
  (forall n, In n (map fst p1) -> In n (map fst p2) -> False) ->
  NoDup (map fst (mappend p1 p2)) ->
  forallb f (mappend p1 p2) = forallb f p1 && forallb f p2.
Proof.
  intros N1 N2 HD N. apply eq_true_iff_eq. rewrite andb_true_iff, !forallb_forall. split.
  - intros H. split; intros [k x] Hin; apply H; apply mget_In; rewrite mget_app_disjoint by exact N2.
    + destruct (mget k p2) eqn:E2; [|now apply NoDup_mget].
      exfalso. apply (HD k); [now apply (in_map fst) in Hin|]. apply mhas_In. congruence.
    + rewrite (NoDup_mget _ _ _ N2 Hin). reflexivity.
  - intros [H1 H2] [k x] Hin. apply NoDup_mget in Hin; [|exact N]. rewrite mget_app_disjoint in Hin by exact N2.
    destruct (mget k p2) eqn:E2.
    + injection Hin as ->. apply H2. now apply mget_In.
    + apply H1. now apply mget_In.
Qed.

Lemma chk_patterns_forall ps v : chk_patterns E (Some (sub_of D2020 E (JObj ps))) v
  = match v with
    | JObj o => forallb (fun kx => forallb (fun pf => negb (e_rx E (fst pf) (fst kx)) || valid D2020 E (snd pf) (snd kx)) ps) o
    | _ => true end.
Proof.
  destruct v; try reflexivity. cbn. apply forallb_eq. intros [k x] _. cbn. clear.
  induction ps as [|[p s] ps IH]; [reflexivity|]. cbn [map forallb fst snd]. rewrite IH. reflexivity.
Qed.

Lemma kw1_patterns p1 p2 v : sorted_keys (map fst p1) = true -> sorted_keys (map fst p2) = true ->
  (forall n, In n (map fst p1) -> In n (map fst p2) -> False) ->
  kw1 "patternProperties" (JObj (mappend p1 p2)) v
  = kw1 "patternProperties" (JObj p1) v && kw1 "patternProperties" (JObj p2) v.
Proof.
  intros S1 S2 HD. unfold kw1, kw. cbn [String.eqb Ascii.eqb Bool.eqb existsb assertion_names orb].
  rewrite !chk_patterns_forall. destruct v; try reflexivity.
  assert (HF : forall f, forallb f (mappend p1 p2) = forallb f p1 && forallb f p2).
  { intros f. apply forallb_mappend; auto using sorted_NoDup. apply sorted_NoDup. now apply sorted_mappend. }
  induction m as [|kx o IH]; [reflexivity|]. cbn [forallb]. rewrite IH, HF.
  destruct (forallb _ p1), (forallb _ p2); cbn; try reflexivity; now rewrite ?andb_false_r.
Qed.

(** One keyword *)
Definition indep (k : string) : Prop := ~ In k dependent_keywords.

Lemma independent_mset k x m : indep k -> independent m -> independent (mset k x m).
Proof.
  intros HK HI c Hc. rewrite mget_mset. destruct (String.eqb_spec c k); [subst; contradiction|auto].
Qed.
Lemma independent_mdel k m : independent m -> independent (mdel k m).
Proof. intros HI c Hc. rewrite mget_mdel. destruct (String.eqb c k); auto. Qed.

Lemma valid_mset_alone k x m v : indep k -> independent m ->
  valid D2020 E (JObj (mset k x m)) v = kw1 k x v && valid D2020 E (JObj (mdel k m)) v.
Proof.
  intros HK HI. apply eq_true_iff_eq. rewrite andb_true_iff.
  rewrite !valid_alone by auto using independent_mset, independent_mdel. split.
  - intros H. split; [apply H; now rewrite mget_mset, String.eqb_refl|].
    intros k' y Hy. apply H. rewrite mget_mdel in Hy. rewrite mget_mset. destruct (String.eqb k' k); congruence.
  - intros [H1 H2] k' y Hy. rewrite mget_mset in Hy. destruct (String.eqb_spec k' k) as [->|N].
    + injection Hy as <-. exact H1.
    + apply H2. rewrite mget_mdel. destruct (String.eqb_spec k' k); congruence.
Qed.

Lemma valid_mdel_alone k x m v : independent m -> mget k m = Some x ->
  valid D2020 E (JObj m) v = kw1 k x v && valid D2020 E (JObj (mdel k m)) v.
Proof.
  intros HI Hx.
  assert (HK : indep k) by (intros HD; rewrite HI in Hx by exact HD; discriminate).
  rewrite <- valid_mset_alone by auto. apply valid_lookup. intros c. rewrite mget_mset.
  destruct (String.eqb_spec c k); congruence.
Qed.

Lemma valid_mdel_none k m v : mget k m = None ->
  valid D2020 E (JObj (mdel k m)) v = valid D2020 E (JObj m) v.
Proof. intros H. apply valid_lookup. intros c. rewrite mget_mdel. destruct (String.eqb_spec c k); congruence. Qed.

(** What one step of the merge has to find *)
Definition step_ok (m : map_t) (k : string) (x : json) : Prop :=
  (forall x1, mget k m = Some x1 -> mergeable_at k x1 x) /\ list_or_absent "allOf" m.

Lemma plain_sem m k x v : independent m -> indep k -> ~ In k ["oneOf"; "anyOf"] ->
  (forall x1, mget k m = Some x1 -> mergeable_at k x1 x) ->
  valid D2020 E (JObj (flatten_plain m k x)) v = valid D2020 E (JObj m) v && kw1 k x v.
Proof.
  intros HI HK HN HM. unfold flatten_plain. destruct (mget k m) as [x1|] eqn:EX.
  2:{ rewrite valid_mset_alone, valid_mdel_none by auto. apply andb_comm. }
  specialize (HM x1 eq_refl). unfold mergeable_at in HM.
  destruct (mem k ["required"; "allOf"]) eqn:M1.
  { apply mem_In in M1. destruct HM as [[l1 ->] [l2 ->]].
    rewrite valid_mset_alone, kw1_app by auto. rewrite (valid_mdel_alone k (JArr l1) m v) by auto.
    destruct (kw1 k (JArr l1) v), (kw1 k (JArr l2) v), (valid D2020 E (JObj (mdel k m)) v); reflexivity. }
  destruct (mem k ["properties"; "patternProperties"]) eqn:M2.
  { apply mem_In in M2. destruct HM as (p1 & p2 & -> & -> & S1 & S2 & HD).
    rewrite valid_mset_alone by auto. rewrite (valid_mdel_alone k (JObj p1) m v) by auto.
    assert (HW : kw1 k (JObj (mappend p1 p2)) v = kw1 k (JObj p1) v && kw1 k (JObj p2) v).
    { destruct M2 as [<-|[<-|[]]]; [apply kw1_props|apply kw1_patterns]; auto using sorted_NoDup. }
    rewrite HW. destruct (kw1 k (JObj p1) v), (kw1 k (JObj p2) v), (valid D2020 E (JObj (mdel k m)) v); reflexivity. }
  destruct (mem k ["oneOf"; "anyOf"]) eqn:M3; [apply mem_In in M3; contradiction|].
  destruct HM as [->|HM]; [|unfold kw1; now rewrite kw_other, andb_true_r].
  rewrite (valid_mdel_alone k x m v) by auto.
  destruct (kw1 k x v), (valid D2020 E (JObj (mdel k m)) v); reflexivity.
Qed.

Lemma single_sem k x v : In k ["oneOf"; "anyOf"] -> valid D2020 E (JObj [(k, x)]) v = kw1 k x v.
Proof.
  intros HK. apply eq_true_iff_eq. rewrite valid_alone.
  - split.
    + intros H. apply H. cbn. now rewrite String.eqb_refl.
    + intros H k' y Hy. cbn in Hy. destruct (String.eqb_spec k' k) as [->|]; [|discriminate].
      now injection Hy as <-.
  - intros c Hc. cbn in Hc. destruct HK as [<-|[<-|[]]]; destruct Hc as [<-|[<-|[<-|[<-|[]]]]]; reflexivity.
Qed.

Lemma kw1_allOf l v : kw1 "allOf" (JArr l) v = forallb (fun s => valid D2020 E s v) l.
Proof.
  unfold kw1, kw. cbn [String.eqb Ascii.eqb Bool.eqb existsb assertion_names orb].
  unfold chk_all. cbn [sub_of s_arr arr_of]. induction l as [|s l IH]; [reflexivity|]. cbn. now rewrite IH.
Qed.

Lemma property_sem m k x v : independent m -> indep k -> step_ok m k x ->
  valid D2020 E (JObj (flatten_property m k x)) v = valid D2020 E (JObj m) v && kw1 k x v.
Proof.
  intros HI HK [HM HA]. unfold flatten_property. destruct (mem k ["oneOf"; "anyOf"]) eqn:M1.
  2:{ apply plain_sem; auto. intros H. apply mem_In in H. congruence. }
  apply mem_In in M1. destruct (mget k m) as [x1|] eqn:EX.
  2:{ rewrite valid_mset_alone, valid_mdel_none by auto. apply andb_comm. }
  assert (HKA : k <> "allOf") by (intros ->; destruct M1 as [H|[H|[]]]; discriminate).
  rewrite plain_sem.
  - rewrite kw1_allOf. cbn [forallb]. rewrite !single_sem, andb_true_r by exact M1.
    rewrite (valid_mdel_alone k x1 m v) by auto.
    destruct (kw1 k x1 v), (kw1 k x v), (valid D2020 E (JObj (mdel k m)) v); reflexivity.
  - now apply independent_mdel.
  - intros H. cbn in H. intuition discriminate.
  - cbn. intuition discriminate.
  - intros y Hy. rewrite mget_mdel in Hy. destruct (String.eqb_spec "allOf" k); [congruence|].
    destruct HA as [HA|[l HA]]; rewrite HA in Hy; [discriminate|]. injection Hy as <-.
    cbn. split; eauto.
Qed.

(** The keys the merge leaves alone *)
Lemma plain_get m k x c : c <> k -> mget c (flatten_plain m k x) = mget c m.
Proof.
  intros N. unfold flatten_plain.
  assert (HS : forall y, mget c (mset k y m) = mget c m)
    by (intros y; rewrite mget_mset; destruct (String.eqb_spec c k); congruence).
  destruct (mget k m) as [x1|]; [|apply HS].
  destruct (mem k ["required"; "allOf"]); [destruct x1, x; auto|].
  destruct (mem k ["properties"; "patternProperties"]); [destruct x1, x; auto|]. reflexivity.
Qed.

Lemma property_get m k x c : c <> k -> c <> "allOf" -> mget c (flatten_property m k x) = mget c m.
Proof.
  intros N1 N2. unfold flatten_property. destruct (mem k ["oneOf"; "anyOf"]); [|now apply plain_get].
  destruct (mget k m).
  - rewrite plain_get by exact N2. rewrite mget_mdel. destruct (String.eqb_spec c k); congruence.
  - rewrite mget_mset. destruct (String.eqb_spec c k); congruence.
Qed.

Lemma plain_all m k x : list_or_absent "allOf" m -> (k = "allOf" -> exists l, x = JArr l) ->
  list_or_absent "allOf" (flatten_plain m k x).
Proof.
  intros HA HX. destruct (String.eqb_spec "allOf" k) as [<-|N].
  - destruct (HX eq_refl) as [l ->]. unfold flatten_plain, list_or_absent in *.
    destruct (mget "allOf" m) as [y|] eqn:EY.
    + destruct HA as [HA|[l1 HA]]; [discriminate|]. injection HA as ->. cbn [mem existsb String.eqb Ascii.eqb Bool.eqb orb].
      right. rewrite mget_mset, String.eqb_refl. eauto.
    + right. rewrite mget_mset, String.eqb_refl. eauto.
  - unfold list_or_absent in *. now rewrite plain_get.
Qed.

Lemma property_all m k x : list_or_absent "allOf" m -> (k = "allOf" -> exists l, x = JArr l) ->
  list_or_absent "allOf" (flatten_property m k x).
Proof.
  intros HA HX. unfold flatten_property. destruct (mem k ["oneOf"; "anyOf"]) eqn:M; [|now apply plain_all].
  apply mem_In in M.
  assert (HKA : "allOf" <> k) by (intros <-; destruct M as [H|[H|[]]]; discriminate).
  destruct (mget k m).
  - apply plain_all; [|intros _; eauto]. unfold list_or_absent in *. rewrite mget_mdel.
    destruct (String.eqb_spec "allOf" k); [congruence|exact HA].
  - unfold list_or_absent in *. rewrite mget_mset. destruct (String.eqb_spec "allOf" k); [congruence|exact HA].
Qed.

Lemma property_independent m k x : indep k -> independent m -> independent (flatten_property m k x).
Proof.
  intros HK HI c Hc. destruct (String.eqb_spec c k) as [->|N]; [contradiction|].
  rewrite property_get; auto. intros ->. cbn in Hc. intuition discriminate.
Qed.

Lemma fold_sem m2 v : forall m1, NoDup (map fst m2) -> independent m1 ->
  (forall k x, In (k, x) m2 -> indep k /\ (k = "allOf" -> exists l, x = JArr l)) ->
  (forall k x1 x2, mget k m1 = Some x1 -> In (k, x2) m2 -> mergeable_at k x1 x2) ->
  list_or_absent "allOf" m1 ->
  valid D2020 E (JObj (fold_left (fun m kv => flatten_property m (fst kv) (snd kv)) m2 m1)) v
  = valid D2020 E (JObj m1) v && forallb (fun kx => kw1 (fst kx) (snd kx) v) m2.
Proof.
  induction m2 as [|[k x] m2 IH]; intros m1 ND HI HK HM HA; [now rewrite andb_true_r|].
  cbn [fold_left forallb fst snd]. inversion ND as [|? ? N1 N2]; subst.
  destruct (HK k x (or_introl eq_refl)) as [HKi HKa].
  rewrite IH.
  - rewrite property_sem; auto.
    + now rewrite andb_assoc.
    + split; [|exact HA]. intros x1 Hx. apply HM; [exact Hx|now left].
  - exact N2.
  - now apply property_independent.
  - intros k' x' Hin. apply HK. now right.
  - intros k' y1 y2 Hy Hin.
    assert (Hne : k' <> k) by (intros ->; apply N1; now apply (in_map fst) in Hin).
    destruct (String.eqb_spec k' "allOf") as [->|NA].
    + destruct (HK "allOf" y2 (or_intror Hin)) as [_ HL].
      destruct (property_all m1 k x HA HKa) as [H|[l H]]; rewrite H in Hy; [discriminate|].
      injection Hy as <-. cbn. split; eauto.
    + rewrite property_get in Hy by auto. apply HM; [exact Hy|now right].
  - now apply property_all.
Qed.

(** The merge of two schemas says what both say. *)
Theorem flatten_conj m1 m2 v : NoDup (map fst m2) -> mergeable m1 m2 ->
  valid D2020 E (flatten (JObj m1) (JObj m2)) v = valid D2020 E (JObj m1) v && valid D2020 E (JObj m2) v.
Proof.
  intros ND [I1 I2 HM A1 A2]. unfold flatten. cbn [ensure_obj ensure_object].
  assert (HN1 : normalise m1 m2 = m1) by (unfold normalise; now rewrite I1 by (cbn; tauto)).
  assert (HN2 : normalise m2 m1 = m2) by (unfold normalise; now rewrite I2 by (cbn; tauto)).
  cbv zeta. rewrite HN1, HN2, fold_sem; auto.
  - f_equal. rewrite (valid_entries E) by exact ND. apply forallb_eq. intros [k x] Hin. symmetry. apply kw_alone.
    intros HD.
    pose proof (NoDup_mget _ _ _ ND Hin) as HG. rewrite I2 in HG by exact HD. discriminate.
  - intros k x Hin. pose proof (NoDup_mget _ _ _ ND Hin) as HG. split.
    + intros HD. rewrite I2 in HG by exact HD. discriminate.
    + intros ->. destruct A2 as [A|[l A]]; rewrite A in HG; [discriminate|]. injection HG as <-. eauto.
  - intros k x1 x2 H1 Hin. apply (HM k); auto. now apply NoDup_mget.
Qed.

(** ** Objects made of two parts *)
(** [local K s]: what [s] says about an object depends on its properties named in [K] only. *)
Definition agree (K : list string) (o o' : map_t) : Prop := forall k, In k K -> mget k o = mget k o'.
Definition local (K : list string) (s : json) : Prop :=
  forall o o', NoDup (map fst o) -> NoDup (map fst o') -> agree K o o' ->
  valid D2020 E s (JObj o) = valid D2020 E s (JObj o').

(** A syntactic form of it, which generated object schemas have: only properties in [K] are
    declared or required, in the schema and the alternatives below it. *)
Fixpoint mentions_n (n : nat) (K : list string) (s : json) : Prop :=
  match n with
  | O => False
  | S n' =>
      match s with
      | JBool _ => True
      | JObj m =>
          forall k x, mget k m = Some x -> In k kws ->
          (k = "type")
          \/ (k = "properties" /\ exists ps, x = JObj ps /\ forall c, mget c ps <> None -> In c K)
          \/ (k = "required" /\ exists l, x = JArr l /\ forall c, In c l -> exists s, c = JStr s /\ In s K)
          \/ (In k ["oneOf"; "anyOf"; "allOf"] /\ exists l, x = JArr l /\ forall c, In c l -> mentions_n n' K c)
      | _ => False
      end
  end.
Definition mentions (K : list string) (s : json) : Prop := exists n, mentions_n n K s.

Lemma kw1_subs k l o o' : In k ["oneOf"; "anyOf"; "allOf"] ->
  (forall c, In c l -> valid D2020 E c o = valid D2020 E c o') -> kw1 k (JArr l) o = kw1 k (JArr l) o'.
Proof.
  intros HK H. unfold kw1, kw.
  destruct HK as [<-|[<-|[<-|[]]]]; cbn [String.eqb Ascii.eqb Bool.eqb existsb assertion_names orb];
    unfold chk_one, chk_any, chk_all, count_ok; cbn [sub_of s_arr arr_of].
  - f_equal. f_equal. induction l as [|c l IH]; [reflexivity|]. cbn [map filter].
    change (ok (eval D2020 E c o)) with (valid D2020 E c o). change (ok (eval D2020 E c o')) with (valid D2020 E c o').
    rewrite (H c (or_introl eq_refl)). destruct (valid D2020 E c o'); cbn [List.length];
      rewrite ?IH by (intros; apply H; now right); auto.
  - induction l as [|c l IH]; [reflexivity|]. cbn [map existsb].
    change (ok (eval D2020 E c o)) with (valid D2020 E c o). change (ok (eval D2020 E c o')) with (valid D2020 E c o').
    rewrite (H c (or_introl eq_refl)), IH; [reflexivity|]. intros; apply H; now right.
  - induction l as [|c l IH]; [reflexivity|]. cbn [map forallb].
    change (ok (eval D2020 E c o)) with (valid D2020 E c o). change (ok (eval D2020 E c o')) with (valid D2020 E c o').
    rewrite (H c (or_introl eq_refl)), IH; [reflexivity|]. intros; apply H; now right.
Qed.

Lemma props_local K ps o o' : (forall c, mget c ps <> None -> In c K) ->
  NoDup (map fst o) -> NoDup (map fst o') -> agree K o o' ->
  props_ok E ps (JObj o) = true -> props_ok E ps (JObj o') = true.
Proof.
  intros HP N N' HA H. cbn [props_ok] in *. rewrite forallb_forall in *. intros [k x] Hin. cbn [fst snd].
  destruct (mget k ps) as [s|] eqn:EP; [|reflexivity].
  apply NoDup_mget in Hin; [|exact N']. rewrite <- HA in Hin by (apply HP; congruence).
  apply mget_In in Hin. specialize (H (k, x) Hin). cbn in H. now rewrite EP in H.
Qed.

Lemma kw_plain m k x v : In k ["type"; "properties"; "required"; "oneOf"; "anyOf"; "allOf"] ->
  kw E m k x v = kw1 k x v.
Proof. intros H. apply kw_alone. intros HD. cbn in H, HD. repeat (destruct H as [<-|H]; [repeat (destruct HD as [HD|HD]; [discriminate|]); exact HD|]).
  exact H.
Qed.

Lemma mentions_local n K : forall s, mentions_n n K s -> local K s.
Proof.
  induction n as [|n IH]; intros s HM; [destruct HM|]. destruct s as [|b| | | |m]; try destruct HM.
  { intros o o' _ _ _. reflexivity. }
  assert (HI : forall o o', NoDup (map fst o) -> NoDup (map fst o') -> agree K o o' ->
    valid D2020 E (JObj m) (JObj o) = true -> valid D2020 E (JObj m) (JObj o') = true).
  { intros o o' N N' HA HV. rewrite valid_kw in *. intros k x Hx. specialize (HV k x Hx).
    destruct (in_dec string_dec k kws) as [HK|HK]; [|now apply kw_other].
    destruct (HM k x Hx HK) as [->|[(-> & ps & -> & HP)|[(-> & l & -> & HL)|(HO & l & -> & HL)]]].
    - exact HV.
    - rewrite kw_plain in * by in_names. unfold kw1, kw in *.
      cbn [String.eqb Ascii.eqb Bool.eqb existsb assertion_names orb] in *. rewrite chk_props_ok in *.
      now apply (props_local K ps o o').
    - rewrite kw_plain in * by in_names. unfold kw1, kw in *.
      cbn [String.eqb Ascii.eqb Bool.eqb existsb assertion_names orb assertion] in *.
      rewrite forallb_forall in *. intros c Hc. specialize (HV c Hc). destruct (HL c Hc) as (s & -> & Hs).
      unfold mhas in *. now rewrite <- (HA s Hs).
    - assert (HO' : In k ["type"; "properties"; "required"; "oneOf"; "anyOf"; "allOf"]) by (cbn in *; tauto).
      rewrite kw_plain in * by exact HO'. rewrite <- HV. symmetry. apply kw1_subs; [exact HO|].
      intros c Hc. apply (IH c (HL c Hc)); auto. }
  intros o o' N N' HA. apply eq_true_iff_eq. split; apply HI; auto. intros k Hk. symmetry. auto.
Qed.

Theorem flatten_merged K1 K2 m1 m2 o1 o2 :
  NoDup (map fst m2) -> mergeable m1 m2 ->
  mentions K1 (JObj m1) -> mentions K2 (JObj m2) ->
  sorted_keys (map fst o1) = true -> sorted_keys (map fst o2) = true ->
  (forall k, In k K2 -> mget k o1 = None) -> (forall k, In k K1 -> mget k o2 = None) ->
  valid D2020 E (flatten (JObj m1) (JObj m2)) (JObj (mappend o1 o2))
  = valid D2020 E (JObj m1) (JObj o1) && valid D2020 E (JObj m2) (JObj o2).
Proof.
  intros ND HM [n1 H1] [n2 H2] S1 S2 D1 D2. rewrite flatten_conj by assumption.
  assert (NA : NoDup (map fst (mappend o1 o2))) by (apply sorted_NoDup; now apply sorted_mappend).
  pose proof (sorted_NoDup _ S1) as N1. pose proof (sorted_NoDup _ S2) as N2.
  rewrite (mentions_local n1 K1 (JObj m1) H1 (mappend o1 o2) o1); auto.
  2:{ intros k Hk. rewrite mget_app_disjoint by exact N2. now rewrite (D2 k Hk). }
  rewrite (mentions_local n2 K2 (JObj m2) H2 (mappend o1 o2) o2); auto.
  intros k Hk. rewrite mget_app_disjoint by exact N2. rewrite (D1 k Hk). now destruct (mget k o2).
Qed.

(** ** Struct-like schemas, one of which may constrain all other properties *)
Lemma fold_get m2 c : c <> "allOf" -> ~ In c ["oneOf"; "anyOf"] -> NoDup (map fst m2) -> forall m1,
  mget c (fold_left (fun m kv => flatten_property m (fst kv) (snd kv)) m2 m1)
  = match mget c m2 with None => mget c m1 | Some x => mget c (flatten_plain m1 c x) end.
Proof.
  intros NA NO. induction m2 as [|[k x] m2 IH]; intros ND m1; [reflexivity|].
  inversion ND as [|? ? N1 N2]; subst. cbn [fold_left mget fst snd]. rewrite IH by exact N2.
  destruct (String.eqb_spec c k) as [->|N].
  - destruct (mget k m2) eqn:EG; [exfalso; apply N1; apply mhas_In; congruence|].
    unfold flatten_property. destruct (mem k ["oneOf"; "anyOf"]) eqn:M; [apply mem_In in M; contradiction|reflexivity].
  - destruct (mget c m2) as [y|]; [|now apply property_get].
    assert (HG : mget c (flatten_property m1 k x) = mget c m1) by now apply property_get.
    unfold flatten_plain. rewrite HG. destruct (mget c m1) as [y1|] eqn:EY.
    + destruct (mem c ["required"; "allOf"]);
        [destruct y1, y; rewrite ?mget_mset, ?String.eqb_refl; congruence|].
      destruct (mem c ["properties"; "patternProperties"]);
        [destruct y1, y; rewrite ?mget_mset, ?String.eqb_refl; congruence|congruence].
    + now rewrite !mget_mset, String.eqb_refl.
Qed.

Definition without_additional (m : map_t) : map_t := mdel "additionalProperties" m.

(** The properties neither schema declares meet additionalProperties. *)
Definition others_ok (m1 m2 o : map_t) : bool :=
  match (match mget "additionalProperties" m1 with Some a => Some a | None => mget "additionalProperties" m2 end) with
  | Some a => forallb (fun kx => mhas (fst kx) (props_of m1) || mhas (fst kx) (props_of m2)
                                 || valid D2020 E a (snd kx)) o
  | None => true
  end.

Lemma shape_without m : object_shape m -> object_shape (without_additional m).
Proof.
  intros (H1 & H2 & H3 & H4). unfold without_additional. repeat split; rewrite ?mget_mdel; cbn [String.eqb Ascii.eqb Bool.eqb]; auto.
  intros k Hk HN. apply H1; auto. rewrite mget_mdel in HN. destruct (String.eqb k "additionalProperties"); congruence.
Qed.

Lemma shape_absent m k : object_shape m -> In k kws -> ~ In k object_keywords -> mget k m = None.
Proof.
  intros (H1 & _) Hk HN. destruct (mget k m) eqn:EM; [|reflexivity]. exfalso. apply HN, H1; congruence.
Qed.

Lemma mhas_mappend {A} k (p1 p2 : list (string * A)) : NoDup (map fst p2) ->
  mhas k (mappend p1 p2) = mhas k p1 || mhas k p2.
Proof. intros H. unfold mhas. rewrite mget_app_disjoint by exact H. destruct (mget k p2), (mget k p1); reflexivity. Qed.

Lemma flatten_plain_sorted m k x : sorted_keys (map fst m) = true -> sorted_keys (map fst (flatten_plain m k x)) = true.
Proof.
  intros H. unfold flatten_plain. destruct (mget k m) as [y|]; [|now apply sorted_mset].
  destruct (mem k ["required"; "allOf"]); [destruct y, x; auto using sorted_mset|].
  destruct (mem k ["properties"; "patternProperties"]); [destruct y, x; auto using sorted_mset|exact H].
Qed.

Lemma fold_flatten_sorted l : forall m, sorted_keys (map fst m) = true ->
  sorted_keys (map fst (fold_left (fun m kv => flatten_property m (fst kv) (snd kv)) l m)) = true.
Proof.
  induction l as [|[k x] l IH]; intros m H; [exact H|]. cbn [fold_left fst snd]. apply IH. unfold flatten_property.
  destruct (mem k ["oneOf"; "anyOf"]); [|now apply flatten_plain_sorted].
  destruct (mget k m); [now apply flatten_plain_sorted, sorted_mdel|now apply sorted_mset].
Qed.

(** The entries of the result *)
Lemma flatten_facts m1 m2 :
  object_shape m1 -> object_shape m2 -> NoDup (map fst m2) ->
  sorted_keys (map fst (props_of m1)) = true -> sorted_keys (map fst (props_of m2)) = true ->
  exists r, flatten (JObj m1) (JObj m2) = JObj r /\ object_shape r
    /\ props_of r = mappend (props_of m1) (props_of m2)
    /\ required_of r = (required_of m1 ++ required_of m2)%list
    /\ mget "additionalProperties" r = match mget "additionalProperties" m1 with
         Some a => Some a | None => mget "additionalProperties" m2 end
    /\ (forall c, c <> "allOf" -> ~ In c ["oneOf"; "anyOf"] ->
         mget c r = match mget c m2 with None => mget c m1 | Some x => mget c (flatten_plain m1 c x) end)
    /\ (sorted_keys (map fst m1) = true -> sorted_keys (map fst r) = true).
Proof.
  intros H1 H2 ND S1 S2. unfold flatten. cbn [ensure_obj ensure_object].
  assert (HS : forall m k, object_shape m -> In k ["unevaluatedProperties"; "if"; "allOf"; "anyOf"; "oneOf"; "$ref"] -> mget k m = None).
  { intros m k Hm Hk. apply shape_absent; [exact Hm| |].
    - cbn in Hk. repeat (destruct Hk as [<-|Hk]; [in_names|]). destruct Hk.
    - cbn in Hk. intros HO. cbn in HO.
      repeat (destruct Hk as [<-|Hk]; [repeat (destruct HO as [HO|HO]; [discriminate|]); exact HO|]). exact Hk. }
  assert (HN : forall m m', object_shape m' -> normalise m m' = m).
  { intros m m' Hm'. unfold normalise, contains_immediate_subschema, mhas. cbn [existsb immediate_keys].
    rewrite !(HS m') by (auto; in_names). now destruct (mget "additionalProperties" m). }
  cbv zeta. rewrite (HN m1 m2 H2), (HN m2 m1 H1).
  set (r := fold_left (fun m kv => flatten_property m (fst kv) (snd kv)) m2 m1).
  assert (HG : forall c, c <> "allOf" -> ~ In c ["oneOf"; "anyOf"] ->
     mget c r = match mget c m2 with None => mget c m1 | Some x => mget c (flatten_plain m1 c x) end)
    by (intros c C1 C2; now apply fold_get).
  assert (HFP : forall c x, mget c m1 = None -> mget c (flatten_plain m1 c x) = Some x).
  { intros c x Hc. unfold flatten_plain. rewrite Hc, mget_mset. now rewrite String.eqb_refl. }
  assert (HP : props_of r = mappend (props_of m1) (props_of m2)
               /\ (mget "properties" r = None \/ exists ps, mget "properties" r = Some (JObj ps))).
  { unfold props_of. rewrite HG by (discriminate || (cbn; intuition discriminate)).
    destruct H1 as (_ & _ & P1 & _), H2 as (_ & _ & P2 & _).
    destruct P1 as [P1|[p1 P1]], P2 as [P2|[p2 P2]]; rewrite P2; try rewrite (HFP _ _ P1); rewrite ?P1.
    - split; auto.
    - split; [|eauto]. assert (S2' : sorted_keys (map fst p2) = true) by (unfold props_of in S2; now rewrite P2 in S2).
      apply sorted_ext; [exact S2'|now apply sorted_mappend|].
      intros k. rewrite mget_app_disjoint by now apply sorted_NoDup. now destruct (mget k p2).
    - split; eauto.
    - unfold flatten_plain. rewrite P1. cbn [mem existsb String.eqb Ascii.eqb Bool.eqb orb].
      rewrite mget_mset. cbn [String.eqb Ascii.eqb Bool.eqb]. split; eauto. }
  assert (HR : required_of r = (required_of m1 ++ required_of m2)%list
               /\ (mget "required" r = None \/ exists l, mget "required" r = Some (JArr l))).
  { unfold required_of. rewrite HG by (discriminate || (cbn; intuition discriminate)).
    destruct H1 as (_ & _ & _ & P1), H2 as (_ & _ & _ & P2).
    destruct P1 as [P1|[p1 P1]], P2 as [P2|[p2 P2]]; rewrite P2; try rewrite (HFP _ _ P1); rewrite ?P1.
    - split; auto.
    - split; eauto.
    - split; eauto. now rewrite app_nil_r.
    - unfold flatten_plain. rewrite P1. cbn [mem existsb String.eqb Ascii.eqb Bool.eqb orb].
      rewrite mget_mset. cbn [String.eqb Ascii.eqb Bool.eqb]. split; eauto. }
  assert (HA : mget "additionalProperties" r = match mget "additionalProperties" m1 with
     Some a => Some a | None => mget "additionalProperties" m2 end).
  { rewrite HG by (discriminate || (cbn; intuition discriminate)).
    destruct (mget "additionalProperties" m1) eqn:A1, (mget "additionalProperties" m2) eqn:A2; auto.
    unfold flatten_plain. rewrite A1. cbn [mem existsb String.eqb Ascii.eqb Bool.eqb orb]. exact A1. }
  assert (HO : object_shape r).
  { split; [|split; [|split; [apply HP|apply HR]]].
    - intros k Hk HX. destruct (in_dec string_dec k object_keywords) as [HI|HI]; [exact HI|]. exfalso. apply HX.
      pose proof (shape_absent m1 k H1 Hk HI) as Z1.
      assert (Z2 : forall c, ~ In c object_keywords -> In c kws -> mget c m2 = None) by (intros; now apply shape_absent).
      assert (HNO : forall l m, (forall c x, In (c, x) l -> c <> "allOf" /\ ~ In c ["oneOf"; "anyOf"] /\ c <> k) ->
         mget k m = None -> mget k (fold_left (fun m kv => flatten_property m (fst kv) (snd kv)) l m) = None).
      { induction l as [|[c x] l IH]; intros m HL Hm; [exact Hm|]. cbn [fold_left fst snd].
        destruct (HL c x (or_introl eq_refl)) as (C1 & C2 & C3).
        apply IH; [intros; apply (HL _ x0); now right|].
        unfold flatten_property. destruct (mem c ["oneOf"; "anyOf"]) eqn:M; [apply mem_In in M; contradiction|].
        now rewrite plain_get by auto. }
      apply HNO; [|exact Z1]. intros c x Hin. pose proof (NoDup_mget _ _ _ ND Hin) as HC. repeat split.
      + intros ->. rewrite HS in HC; auto; [discriminate|in_names].
      + intros [<-|[<-|[]]]; rewrite HS in HC; auto; try discriminate; in_names.
      + intros ->. rewrite Z2 in HC by assumption. discriminate.
    - rewrite HG by (discriminate || (cbn; intuition discriminate)).
      destruct H1 as (_ & T1 & _), H2 as (_ & T2 & _).
      destruct T2 as [T2|T2]; rewrite T2; [exact T1|]. destruct T1 as [T1|T1].
      + right. now apply HFP.
      + right. unfold flatten_plain. rewrite T1. cbn [mem existsb String.eqb Ascii.eqb Bool.eqb orb]. exact T1. }
  exists r. refine (conj eq_refl (conj HO (conj (proj1 HP) (conj (proj1 HR) (conj HA (conj HG _)))))).
  apply fold_flatten_sorted.
Qed.

Theorem flatten_shape m1 m2 o :
  object_shape m1 -> object_shape m2 -> NoDup (map fst m2) ->
  sorted_keys (map fst (props_of m1)) = true -> sorted_keys (map fst (props_of m2)) = true ->
  (forall k, mget k (props_of m1) <> None -> mget k (props_of m2) <> None -> False) ->
  valid D2020 E (flatten (JObj m1) (JObj m2)) (JObj o)
  = valid D2020 E (JObj (without_additional m1)) (JObj o)
    && valid D2020 E (JObj (without_additional m2)) (JObj o) && others_ok m1 m2 o.
Proof.
  intros H1 H2 ND S1 S2 HD.
  destruct (flatten_facts m1 m2 H1 H2 ND S1 S2) as (r & -> & HO & HP & HR & HA & _).
  rewrite (valid_shape E r o HO).
  rewrite (valid_shape E _ o (shape_without m1 H1)), (valid_shape E _ o (shape_without m2 H2)).
  assert (HX : forall m, props_of (without_additional m) = props_of m /\ required_of (without_additional m) = required_of m
                 /\ additional_ok E (without_additional m) o = true).
  { intros m. unfold props_of, required_of, additional_ok, without_additional. rewrite !mget_mdel.
    cbn [String.eqb Ascii.eqb Bool.eqb]. auto. }
  destruct (HX m1) as (-> & -> & ->), (HX m2) as (-> & -> & ->). rewrite HP, HR.
  assert (N2 : NoDup (map fst (props_of m2))) by now apply sorted_NoDup.
  assert (HPK : props_ok E (mappend (props_of m1) (props_of m2)) (JObj o)
                = props_ok E (props_of m1) (JObj o) && props_ok E (props_of m2) (JObj o)).
  { pose proof (kw1_props (props_of m1) (props_of m2) (JObj o)) as HK. unfold kw1, kw in HK.
    cbn [String.eqb Ascii.eqb Bool.eqb existsb assertion_names orb] in HK. rewrite !chk_props_ok in HK.
    apply HK; auto using sorted_NoDup. intros n A B. apply mhas_In in A, B. eauto. }
  assert (HRK : required_ok (required_of m1 ++ required_of m2)%list (JObj o)
                = required_ok (required_of m1) (JObj o) && required_ok (required_of m2) (JObj o)).
  { unfold required_ok. apply forallb_app. }
  assert (HAK : additional_ok E r o = others_ok m1 m2 o).
  { unfold additional_ok, others_ok. rewrite HA, HP.
    destruct (match mget "additionalProperties" m1 with Some a => Some a | None => mget "additionalProperties" m2 end); [|reflexivity].
    apply forallb_eq. intros kx _. now rewrite mhas_mappend. }
  rewrite HPK, HRK, HAK.
  destruct (props_ok E (props_of m1) (JObj o)), (props_ok E (props_of m2) (JObj o)),
    (required_ok (required_of m1) (JObj o)), (required_ok (required_of m2) (JObj o)), (others_ok m1 m2 o); reflexivity.
Qed.

(** A struct with a flattened map: the known properties go by the struct's schema, all others by
    the map's value schema. *)
Theorem flatten_map m1 a o :
  object_shape m1 -> mget "additionalProperties" m1 = None ->
  sorted_keys (map fst (props_of m1)) = true ->
  valid D2020 E (flatten (JObj m1) (JObj [("additionalProperties", a); ("type", JStr "object")])) (JObj o)
  = valid D2020 E (JObj m1) (JObj o)
    && forallb (fun kx => mhas (fst kx) (props_of m1) || valid D2020 E a (snd kx)) o.
Proof.
  intros H1 HA S1. rewrite flatten_shape; auto.
  - unfold others_ok. rewrite HA. cbn [mget String.eqb Ascii.eqb Bool.eqb props_of].
    unfold without_additional. rewrite (valid_mdel_none _ m1) by exact HA. cbn [mdel String.eqb Ascii.eqb Bool.eqb].
    assert (HT : valid D2020 E (JObj [("type", JStr "object")]) (JObj o) = true).
    { apply valid_kw. intros k x Hx. cbn [mget] in Hx. destruct (String.eqb_spec k "type") as [->|]; [|discriminate].
      injection Hx as <-. reflexivity. }
    rewrite HT, andb_true_r. f_equal. apply forallb_eq. intros kx _. unfold mhas at 2. cbn. now rewrite orb_false_r.
  - split; [|repeat split; auto]. intros k Hk HX. cbn [mget] in HX.
    destruct (String.eqb_spec k "additionalProperties") as [->|]; [in_names|].
    destruct (String.eqb_spec k "type") as [->|]; [in_names|now elim HX].
  - repeat constructor; cbn; intuition discriminate.
Qed.
End Flatten.
