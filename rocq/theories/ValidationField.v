(** Validation attributes on a field: what the inserted keywords can and cannot change. *)
From Coq Require Import String Ascii List ZArith NArith Bool Lia.
From Verif Require Import Json JsonFacts Utf8 SchemaApi Validate ValidateFacts ValidateKw Private RegexSyntax
  ValidationAttrs ValidationProofs.
Import ListNotations.
Open Scope string_scope.
Open Scope list_scope.

(** The keywords an attribute stands for *)
Definition opt_entry (k : string) (o : option json) : list (string * json) :=
  match o with Some x => [(k, x)] | None => [] end.
Definition lr_entries (l : length_or_range) (suffix : string) : list (string * json) :=
  opt_entry ("min" ++ suffix) (orelse (lr_min l) (lr_equal l)) ++ opt_entry ("max" ++ suffix) (orelse (lr_max l) (lr_equal l)).
Definition entries (a : vattrs) : list (string * json) :=
  match va_length a with Some l => lr_entries l "Length" ++ lr_entries l "Items" | None => [] end
  ++ match va_range a with Some l => lr_entries l "imum" | None => [] end
  ++ opt_entry "pattern" (option_map JStr (orelse (va_regex a) (va_pattern a)))
  ++ opt_entry "pattern" (option_map (fun t => JStr (escape t)) (va_contains a))
  ++ opt_entry "format" (option_map JStr (va_format a)).

Lemma opt_entry_in k o k' x : In (k', x) (opt_entry k o) -> k' = k /\ o = Some x.
Proof. destruct o as [y|]; cbn; [|intros []]. intros [[= -> ->]|[]]. auto. Qed.

Lemma entries_in a k x : In (k, x) (entries a) ->
  (exists l, va_length a = Some l /\ ((In k ["minLength"; "minItems"] /\ orelse (lr_min l) (lr_equal l) = Some x)
                                       \/ (In k ["maxLength"; "maxItems"] /\ orelse (lr_max l) (lr_equal l) = Some x)))
  \/ (exists l, va_range a = Some l /\ ((k = "minimum" /\ orelse (lr_min l) (lr_equal l) = Some x)
                                         \/ (k = "maximum" /\ orelse (lr_max l) (lr_equal l) = Some x)))
  \/ (k = "pattern" /\ exists p, x = JStr p /\ (orelse (va_regex a) (va_pattern a) = Some p \/ exists t, va_contains a = Some t /\ p = escape t))
  \/ (k = "format" /\ exists f, x = JStr f /\ va_format a = Some f).
Proof.
  unfold entries, lr_entries. rewrite !in_app_iff. intros [H|[H|[H|[H|H]]]].
  - left. destruct (va_length a) as [l|]; [|destruct H]. exists l. split; [reflexivity|].
    rewrite !in_app_iff in H. destruct H as [[H|H]|[H|H]]; apply opt_entry_in in H as [-> H]; cbn; auto 6.
  - right; left. destruct (va_range a) as [l|]; [|destruct H]. exists l. split; [reflexivity|].
    rewrite !in_app_iff in H. destruct H as [H|H]; apply opt_entry_in in H as [-> H]; cbn; auto.
  - right; right; left. apply opt_entry_in in H as [-> H]. split; [reflexivity|].
    destruct (orelse _ _) as [p|]; [|discriminate]. injection H as <-. exists p. auto.
  - right; right; left. apply opt_entry_in in H as [-> H]. split; [reflexivity|].
    destruct (va_contains a) as [p|]; [|discriminate]. injection H as <-. exists (escape p). eauto.
  - do 3 right. apply opt_entry_in in H as [-> H]. split; [reflexivity|].
    destruct (va_format a) as [p|]; [|discriminate]. injection H as <-. exists p. auto.
Qed.

Lemma entries_key a k x : In (k, x) (entries a) -> In k validation_keywords.
Proof.
  intros H. apply entries_in in H as [(l & _ & [[H _]|[H _]])|[(l & _ & [[-> _]|[-> _]])|[[-> _]|[-> _]]]];
    [cbn in H; destruct H as [<-|[<-|[]]]; in_names..| | | |]; cbn; auto 10.
Qed.

(** The attribute's effect is a sequence of insertions of these keywords *)
Lemma insert_validation_ind (P : json -> Prop) s rt k x : P s -> P (insert k x s) -> P (insert_validation s rt k x).
Proof. intros H1 H2. destruct (insert_validation_cases s rt k x) as [[_ ->]|[_ ->]]; assumption. Qed.

Lemma lr_ind (P : json -> Prop) l rt suffix : forall s, P s ->
  (forall s k x, In (k, x) (lr_entries l suffix) -> P s -> P (insert k x s)) -> P (add_length_or_range l rt suffix s).
Proof.
  intros s Hs HI. unfold add_length_or_range, lr_entries in *.
  assert (H1 : P match orelse (lr_min l) (lr_equal l) with Some x => insert_validation s rt ("min" ++ suffix) x | None => s end).
  { destruct (orelse (lr_min l) (lr_equal l)) as [x|]; [|exact Hs]. apply insert_validation_ind; [exact Hs|].
    apply HI; [|exact Hs]. now left. }
  destruct (orelse (lr_max l) (lr_equal l)) as [x|]; [|exact H1]. apply insert_validation_ind; [exact H1|].
  apply HI; [|exact H1]. apply in_or_app. right. now left.
Qed.

Lemma outer_ind (P : json -> Prop) a s : P s ->
  (forall s k x, In (k, x) (entries a) -> P s -> P (insert k x s)) -> P (add_outer a s).
Proof.
  intros Hs HI. unfold add_outer, entries in *.
  assert (H1 : P match va_length a with
    | Some l => add_length_or_range l "array" "Items" (add_length_or_range l "string" "Length" s) | None => s end).
  { destruct (va_length a) as [l|]; [|exact Hs]. apply lr_ind; [apply lr_ind; [exact Hs|]|]; intros; apply HI; auto;
      apply in_or_app; left; apply in_or_app; auto. }
  set (s1 := match va_length a with Some _ => _ | None => s end) in *. clearbody s1.
  assert (H2 : P match va_range a with Some l => add_length_or_range l "number" "imum" s1 | None => s1 end).
  { destruct (va_range a) as [l|]; [|exact H1]. apply lr_ind; [exact H1|]. intros; apply HI; auto.
    apply in_or_app; right; apply in_or_app; auto. }
  set (s2 := match va_range a with Some _ => _ | None => s1 end) in *. clearbody s2.
  assert (H3 : P match orelse (va_regex a) (va_pattern a) with
    | Some p => insert_validation s2 "string" "pattern" (JStr p) | None => s2 end).
  { destruct (orelse (va_regex a) (va_pattern a)) as [p|]; [|exact H2]. apply insert_validation_ind; [exact H2|]. apply HI; [|exact H2].
    cbn [option_map opt_entry]. do 2 (apply in_or_app; right). now left. }
  set (s3 := match orelse (va_regex a) (va_pattern a) with Some _ => _ | None => s2 end) in *. clearbody s3.
  assert (H4 : P match va_contains a with Some t => must_contain s3 t | None => s3 end).
  { destruct (va_contains a) as [p|]; [|exact H3]. unfold must_contain. apply insert_validation_ind; [exact H3|]. apply HI; [|exact H3].
    cbn [option_map opt_entry]. do 3 (apply in_or_app; right). now left. }
  set (s4 := match va_contains a with Some _ => _ | None => s3 end) in *. clearbody s4.
  destruct (va_format a) as [f|]; [|exact H4]. apply HI; [|exact H4]. cbn [option_map opt_entry]. do 4 (apply in_or_app; right). now left.
Qed.

Lemma inner_cases s f : apply_inner_validation s f = s
  \/ exists m it, s = JObj m /\ mget "items" m = Some it /\ is_schema it = true
       /\ apply_inner_validation s f = JObj (mupd "items" (fun _ => f it) m).
Proof.
  unfold apply_inner_validation. destruct s as [| | | | |m]; try (left; reflexivity). cbn [s_get].
  destruct (mget "items" m) as [it|] eqn:EI; [|left; reflexivity]. destruct (is_schema it) eqn:ES; [|left; reflexivity].
  right. exists m, it. unfold s_get_mut_set, mhas. rewrite EI. auto.
Qed.

Lemma mutators_is_schema : forall a s, is_schema s = true -> is_schema (add_mutators a s) = true.
Proof.
  intros a s H. rewrite add_mutators_unfold.
  assert (HO : is_schema (add_outer a s) = true) by (apply (outer_ind (fun s => is_schema s = true)); auto).
  destruct (va_inner a) as [i|]; [|exact HO]. destruct (inner_cases (add_outer a s) (add_mutators i)) as [->|(m & it & _ & _ & _ & ->)]; auto.
Qed.

Lemma no_mutators a s : no_checks a -> add_mutators a s = s.
Proof. unfold no_checks. intros ->. reflexivity. Qed.

Section Sem.
Variable E : env.
Notation ok_ := (valid D2020 E).

Lemma sat_entries a v k x : sat_outer E a v = true -> In (k, x) (entries a) -> assertion E k x v = true.
Proof.
  intros HS H. unfold sat_outer in HS. apply andb_prop in HS as [HF HS]. pose proof (entries_in _ _ _ H) as HI.
  destruct HI as [(l & HL & HI)|[(l & HL & HI)|[(-> & p & -> & HP)|(-> & f & -> & HFo)]]].
  - rewrite HL in HS. cbn [opt_ok] in HS. destruct v as [| | |s|s|]; try (destruct HI as [[[<-|[<-|[]]] _]|[[<-|[<-|[]]] _]]; destruct x; reflexivity).
    + apply andb_prop in HS as [HS _]. apply andb_prop in HS as [HS _]. unfold len_ok in HS. apply andb_prop in HS as [H1 H2].
      destruct HI as [[HK HE]|[HK HE]]; rewrite HE in *; destruct HK as [<-|[<-|[]]]; destruct x; try reflexivity; assumption.
    + unfold len_ok in HS. apply andb_prop in HS as [H1 H2].
      destruct HI as [[HK HE]|[HK HE]]; rewrite HE in *; destruct HK as [<-|[<-|[]]]; destruct x; try reflexivity; assumption.
  - rewrite HL in HS. cbn [opt_ok] in HS. destruct v as [| |n| | |]; try (destruct HI as [[-> _]|[-> _]]; destruct x; reflexivity).
    unfold range_ok in HS. apply andb_prop in HS as [H1 H2].
    destruct HI as [[-> HE]|[-> HE]]; rewrite HE in *; destruct x; try reflexivity; assumption.
  - destruct v as [| | |s| |]; try reflexivity. apply andb_prop in HS as [HS HC]. apply andb_prop in HS as [_ HP'].
    destruct HP as [HP|(t & HP & ->)]; rewrite HP in *; assumption.
  - rewrite HFo in HF. exact HF.
Qed.

Lemma null_entries a k x : (forall f, e_fmt E f JNull = true) -> In (k, x) (entries a) -> assertion E k x JNull = true.
Proof.
  intros HN H. apply (sat_entries a); [|exact H]. unfold sat_outer. rewrite andb_true_r. destruct (va_format a); [apply HN|reflexivity].
Qed.

Lemma kw_validation m k x v : In k validation_keywords -> kw E m k x v = assertion E k x v.
Proof. intros H. cbn in H. repeat (destruct H as [<-|H]; [reflexivity|]). destruct H. Qed.
Lemma validation_ctx k : In k validation_keywords -> ~ In k ctx.
Proof. intros H HC. cbn in H, HC. repeat (destruct H as [<-|H]; [intuition discriminate|]). exact H. Qed.

Lemma insert_accepts k x s v : In k validation_keywords -> assertion E k x v = true -> is_schema s = true ->
  ok_ s v = true -> ok_ (insert k x s) v = true.
Proof.
  intros HK HA HC HV. unfold insert. rewrite valid_set by now apply validation_ctx. rewrite kw_validation, HA by exact HK. cbn [andb].
  destruct s as [|[|]| | | |m]; try discriminate HC; try discriminate HV.
  { change (mdel k (ensure_obj (JBool true))) with (@nil (string * json)). apply valid_kw. discriminate. }
  cbn [ensure_obj ensure_object]. rewrite (valid_out E k) in HV by now apply validation_ctx. now apply andb_prop in HV.
Qed.

Lemma mupd_items (m : map_t) (f it : json) k : mget "items" m = Some it -> mget k (mupd "items" (fun _ => f) m) = mget k (mset "items" f m).
Proof.
  intros H. rewrite mget_mset, mget_mupd. destruct (String.eqb_spec k "items") as [->|]; [now rewrite H|reflexivity].
Qed.

Lemma in_skipn {A} (n : nat) (l : list A) x : In x (skipn n l) -> In x l.
Proof. revert l. induction n as [|n IH]; intros [|y l] H; cbn in *; auto. Qed.

(** A value that meets the attribute is accepted whenever the schema without it accepts it. *)
Lemma mutators_accept : forall a s v, is_schema s = true -> ok_ s v = true -> satisfies E a v = true -> ok_ (add_mutators a s) v = true.
Proof.
  fix IH 1. intros a s v HC HV HS. rewrite add_mutators_unfold. rewrite satisfies_unfold in HS. apply andb_prop in HS as [HS HI].
  assert (HO : ok_ (add_outer a s) v = true).
  { apply (outer_ind (fun s => is_schema s = true /\ ok_ s v = true)); [auto|]. intros s' k x Hk [Hc Hs']. split; [reflexivity|]. apply insert_accepts; auto.
    - eapply entries_key; eauto. - eapply sat_entries; eauto. }
  destruct a as [a1 a2 a3 a4 a5 a6 a7 [i|]]; cbn [va_inner] in *; [|exact HO].
  set (s1 := add_outer _ s) in *. clearbody s1.
  destruct (inner_cases s1 (add_mutators i)) as [->|(m & it & -> & Hit & HSc & ->)]; [exact HO|].
  rewrite (valid_lookup E _ (mset "items" (add_mutators i it) m)) by (intros; now apply (mupd_items _ _ it)).
  rewrite valid_set by (intros HH; cbn in HH; intuition discriminate).
  rewrite (valid_out E "items") in HO by (intros HH; cbn in HH; intuition discriminate). unfold kw_all in HO. rewrite Hit in HO.
  apply andb_prop in HO as [HK HO]. rewrite HO, andb_true_r.
  unfold kw in *. cbn [String.eqb Ascii.eqb Bool.eqb existsb assertion_names orb] in *. destruct v as [| | | |l|]; auto.
  rewrite forallb_forall in HI, HK |- *. intros y Hy. apply IH; [exact HSc|now apply HK|]. apply HI. eapply in_skipn; eauto.
Qed.

(** ** Where a schema says which types it allows, what it accepts with the attribute meets it *)
Definition step (s : json) (e : option string * string * json) : json :=
  match e with
  | (Some rt, k, x) => insert_validation s rt k x
  | (None, k, x) => insert k x s
  end.
Definition opt_step (rt : option string) (k : string) (o : option json) : list (option string * string * json) :=
  match o with Some x => [(rt, k, x)] | None => [] end.
Definition lr_steps (l : length_or_range) (rt suffix : string) :=
  opt_step (Some rt) ("min" ++ suffix) (orelse (lr_min l) (lr_equal l)) ++ opt_step (Some rt) ("max" ++ suffix) (orelse (lr_max l) (lr_equal l)).
Definition steps (a : vattrs) : list (option string * string * json) :=
  match va_length a with Some l => lr_steps l "string" "Length" ++ lr_steps l "array" "Items" | None => [] end
  ++ match va_range a with Some l => lr_steps l "number" "imum" | None => [] end
  ++ opt_step (Some "string") "pattern" (option_map JStr (orelse (va_regex a) (va_pattern a)))
  ++ opt_step (Some "string") "pattern" (option_map (fun t => JStr (escape t)) (va_contains a))
  ++ opt_step None "format" (option_map JStr (va_format a)).

Lemma lr_fold l rt suffix s : add_length_or_range l rt suffix s = fold_left step (lr_steps l rt suffix) s.
Proof.
  unfold add_length_or_range, lr_steps. destruct (orelse (lr_min l) (lr_equal l)), (orelse (lr_max l) (lr_equal l)); reflexivity.
Qed.
Lemma outer_fold a s : add_outer a s = fold_left step (steps a) s.
Proof.
  unfold add_outer, steps, must_contain. rewrite !fold_left_app.
  destruct (va_length a) as [l|]; [rewrite fold_left_app, <- !lr_fold|];
    (destruct (va_range a) as [r|]; [rewrite <- !lr_fold|]);
    destruct (orelse (va_regex a) (va_pattern a)), (va_contains a), (va_format a); reflexivity.
Qed.

Definition key_of (e : option string * string * json) : string := snd (fst e).
Definition kind_ok (e : option string * string * json) : Prop :=
  match e with
  | (None, k, _) => In k validation_keywords
  | (Some rt, k, x) => In k validation_keywords /\ In rt ["string"; "array"; "number"]
      /\ forall v, type_ok rt v = false -> assertion E k x v = true
  end.

Lemma opt_step_kind rt k o : (forall x, kind_ok (rt, k, x)) -> Forall kind_ok (opt_step rt k o).
Proof. intros H. destruct o; cbn [opt_step]; repeat constructor; auto. Qed.
Lemma str_kind k x : In k ["minLength"; "maxLength"; "pattern"] -> kind_ok (Some "string", k, x).
Proof. intros H. split; [destruct H as [<-|[<-|[<-|[]]]]; cbn; auto 10|]. split; [cbn; auto|]. intros v. now apply vac_str. Qed.
Lemma arr_kind k x : In k ["minItems"; "maxItems"] -> kind_ok (Some "array", k, x).
Proof. intros H. split; [destruct H as [<-|[<-|[]]]; cbn; auto 10|]. split; [cbn; auto|]. intros v. now apply vac_arr. Qed.
Lemma num_kind k x : In k ["minimum"; "maximum"] -> kind_ok (Some "number", k, x).
Proof. intros H. split; [destruct H as [<-|[<-|[]]]; cbn; auto 10|]. split; [cbn; auto|]. intros v. now apply vac_num. Qed.
Lemma steps_kind a : Forall kind_ok (steps a).
Proof.
  unfold steps, lr_steps. rewrite !Forall_app. split; [|split; [|split; [|split]]].
  - destruct (va_length a) as [l|]; [|constructor]. rewrite !Forall_app.
    split; split; apply opt_step_kind; intros x; first [apply str_kind|apply arr_kind]; cbn; auto.
  - destruct (va_range a) as [l|]; [|constructor]. rewrite !Forall_app. split; apply opt_step_kind; intros x; apply num_kind; cbn; auto.
  - apply opt_step_kind; intros x; apply str_kind; cbn; auto.
  - apply opt_step_kind; intros x; apply str_kind; cbn; auto.
  - apply opt_step_kind; intros x; cbn; auto 10.
Qed.

Lemma steps_distinct a : one_pattern a -> NoDup (map key_of (steps a)).
Proof.
  intros H. unfold steps, lr_steps.
  assert (D : forall l : list string, forallb (fun k => Nat.eqb (count_occ string_dec l k) 1) l = true -> NoDup l).
  { intros l HL. apply (NoDup_count_occ string_dec). intros x. destruct (in_dec string_dec x l) as [HI|HI].
    - rewrite forallb_forall in HL. specialize (HL x HI). apply Nat.eqb_eq in HL. lia.
    - apply (count_occ_not_In string_dec) in HI. lia. }
  apply D. destruct H as [->|[-> ->]]; cbn [option_map opt_step orelse];
    (destruct (va_length a) as [l|]; [destruct (orelse (lr_min l) _), (orelse (lr_max l) _)|]);
    (destruct (va_range a) as [r|]; [destruct (orelse (lr_min r) _), (orelse (lr_max r) _)|]);
    try destruct (orelse _ _); try destruct (va_contains a); destruct (va_format a); reflexivity.
Qed.

Lemma matches_type_ext rt m m' : mget "type" m' = mget "type" m -> matches_type rt (JObj m) -> matches_type rt (JObj m').
Proof.
  intros HT. assert (G : forall t, lists_type t (JObj m) -> lists_type t (JObj m')).
  { intros t (x & [= <-] & H). exists m'. split; [reflexivity|]. now rewrite HT. }
  intros [H|[HR H]]; [left|right]; auto.
Qed.

Lemma steps_run l : forall m, Forall kind_ok l -> NoDup (map key_of l) ->
  exists m', fold_left step l (JObj m) = JObj m' /\ (forall k, ~ In k (map key_of l) -> mget k m' = mget k m)
    /\ forall rt k x, In (rt, k, x) l -> match rt with Some t => matches_type t (JObj m) | None => True end -> mget k m' = Some x.
Proof.
  induction l as [|[[rt k] x] l IH]; intros m HK HN; [exists m; split; [reflexivity|split; [reflexivity|intros rt k x []]]|].
  inversion HK as [|? ? HK1 HK2]; inversion HN as [|? ? HN1 HN2]; subst. change (key_of (rt, k, x)) with k in *.
  assert (HT : k <> "type").
  { destruct rt as [t|]; cbn in HK1; [destruct HK1 as [HK1 _]|]; intros ->; cbn in HK1; intuition discriminate. }
  assert (H1 : exists m1, step (JObj m) (rt, k, x) = JObj m1 /\ (forall k', k' <> k -> mget k' m1 = mget k' m)
     /\ (match rt with Some t => matches_type t (JObj m) | None => True end -> mget k m1 = Some x)).
  { assert (HI : exists m1, insert k x (JObj m) = JObj m1 /\ (forall k', k' <> k -> mget k' m1 = mget k' m) /\ mget k m1 = Some x).
    { exists (mset k x m). split; [reflexivity|]. split; [intros k' Hk; rewrite mget_mset; destruct (String.eqb_spec k' k); congruence|].
      now rewrite mget_mset, String.eqb_refl. }
    destruct rt as [t|]; cbn [step]; [|destruct HI as (m1 & ? & ? & ?); exists m1; auto].
    destruct (insert_validation_cases (JObj m) t k x) as [[HM ->]|[HM ->]]; [destruct HI as (m1 & ? & ? & ?); exists m1; auto|].
    exists m. repeat split; auto. intros; contradiction. }
  destruct H1 as (m1 & HE & H1 & H2). destruct (IH m1 HK2 HN2) as (m' & HF & H3 & H4). exists m'.
  change (fold_left step ((rt, k, x) :: l) (JObj m)) with (fold_left step l (step (JObj m) (rt, k, x))). rewrite HE.
  assert (HTy : mget "type" m1 = mget "type" m) by (apply H1; congruence).
  split; [exact HF|]. split.
  - intros k' Hk. cbn [map] in Hk. rewrite H3, H1; auto; intros ?; apply Hk; cbn; auto.
  - intros rt' k' x' [[= -> -> ->]|HIn] HM.
    + rewrite H3 by exact HN1. now apply H2.
    + apply (H4 _ _ _ HIn). destruct rt'; [|exact I]. eapply matches_type_ext; eauto.
Qed.

Lemma steps_entries a : map (fun e => (key_of e, snd e)) (steps a) = entries a.
Proof.
  unfold steps, entries, lr_steps, lr_entries. rewrite !map_app.
  f_equal; [destruct (va_length a) as [l|]; [|reflexivity]; rewrite !map_app; repeat destruct (orelse _ _); reflexivity|].
  f_equal; [destruct (va_range a) as [l|]; [|reflexivity]; rewrite !map_app; repeat destruct (orelse _ _); reflexivity|].
  f_equal; [destruct (orelse _ _); reflexivity|]. f_equal; [destruct (va_contains a); reflexivity|]. destruct (va_format a); reflexivity.
Qed.

Lemma entries_sat a v : (forall k x, In (k, x) (entries a) -> assertion E k x v = true) -> sat_outer E a v = true.
Proof.
  intros H. unfold entries, lr_entries in H.
  assert (HF : opt_ok (fun f => e_fmt E f v) (va_format a) = true).
  { destruct (va_format a) as [f|]; [|reflexivity]. apply (H "format" (JStr f)). do 4 (apply in_or_app; right). now left. }
  unfold sat_outer. rewrite HF. cbn [andb].
  assert (HO : forall k o, (forall x, o = Some x -> assertion E k x v = true) -> opt_ok (fun x => assertion E k x v) o = true).
  { intros k [x|] Hx; [now apply Hx|reflexivity]. }
  assert (HL : forall l, va_length a = Some l -> lr_assert E l "minLength" "maxLength" v = true /\ lr_assert E l "minItems" "maxItems" v = true).
  { intros l HE. rewrite HE in H. unfold lr_assert.
    split; apply andb_true_intro; split; apply HO; intros x Hx;
      apply H; apply in_or_app; left; rewrite Hx, ?in_app_iff; cbn; auto 6. }
  assert (HR : forall l, va_range a = Some l -> lr_assert E l "minimum" "maximum" v = true).
  { intros l HE. rewrite HE in H. unfold lr_assert.
    apply andb_true_intro; split; apply HO; intros x Hx;
      apply H; apply in_or_app; right; apply in_or_app; left; rewrite Hx, ?in_app_iff; cbn; auto 6. }
  destruct v as [| |n|s|l|]; try reflexivity.
  - destruct (va_range a) as [r|]; [|reflexivity]. specialize (HR r eq_refl). now rewrite lr_assert_range in HR.
  - apply andb_true_intro. split; [apply andb_true_intro; split|].
    + destruct (va_length a) as [r|]; [|reflexivity]. destruct (HL r eq_refl) as [HL1 _]. now rewrite lr_assert_length in HL1.
    + destruct (orelse (va_regex a) (va_pattern a)) as [p|]; [|reflexivity]. apply (H "pattern" (JStr p)).
      do 2 (apply in_or_app; right). now left.
    + destruct (va_contains a) as [p|]; [|reflexivity]. apply (H "pattern" (JStr (escape p))). do 3 (apply in_or_app; right). now left.
  - destruct (va_length a) as [r|]; [|reflexivity]. destruct (HL r eq_refl) as [_ HL1]. now rewrite lr_assert_items in HL1.
Qed.

(** The schema says which types it allows; for [inner], so does the schema of its items. *)
Fixpoint says_types (a : vattrs) (s : json) : Prop :=
  match s with
  | JObj m => typed m /\ one_pattern a
      /\ match va_inner a with
         | Some i => mget "prefixItems" m = None /\ exists it, mget "items" m = Some it /\ says_types i it
         | None => True
         end
  | _ => False
  end.
Lemma says_types_unfold a s : says_types a s -> exists m, s = JObj m /\ typed m /\ one_pattern a
  /\ match va_inner a with
     | Some i => mget "prefixItems" m = None /\ exists it, mget "items" m = Some it /\ says_types i it
     | None => True
     end.
Proof. destruct a, s; cbn [says_types]; try tauto. intros H. exists m. auto. Qed.

Lemma outer_enforces a m v m' : typed m -> one_pattern a -> add_outer a (JObj m) = JObj m' ->
  mget "type" m' = mget "type" m -> (forall rt k x, In (rt, k, x) (steps a) ->
     match rt with Some t => matches_type t (JObj m) | None => True end -> mget k m' = Some x) ->
  ok_ (JObj m') v = true -> sat_outer E a v = true.
Proof.
  intros HT H1 HE HTy HG HV. apply entries_sat. intros k x Hin. rewrite <- steps_entries in Hin.
  apply in_map_iff in Hin as ([[rt k'] x'] & [= <- <-] & Hin). change (key_of (rt, k', x')) with k'. cbn [snd].
  pose proof (steps_kind a) as HK. rewrite Forall_forall in HK. specialize (HK _ Hin).
  assert (HA : match rt with Some t => matches_type t (JObj m) | None => True end -> assertion E k' x' v = true).
  { intros HM. specialize (HG _ _ _ Hin HM). rewrite <- (kw_validation m'); [eapply valid_kw; eauto|].
    destruct rt; cbn in HK |- *; [apply HK|exact HK]. }
  destruct rt as [t|]; [|now apply HA]. destruct HK as (_ & HR & HVac).
  destruct (type_ok t v) eqn:ET; [|now apply HVac]. apply HA. apply (matches_type_ext t m' m); [now symmetry|].
  eapply (type_matches E m' v); eauto. destruct HT as [[y Hy]|[y Hy]]; [left|right]; exists y; now rewrite HTy.
Qed.

Lemma mutators_enforce : forall a s v, says_types a s -> ok_ (add_mutators a s) v = true -> satisfies E a v = true.
Proof.
  fix IH 1. intros a s v HR HV. rewrite add_mutators_unfold in HV. rewrite satisfies_unfold.
  destruct (says_types_unfold a s HR) as (m & -> & HT & H1 & HI).
  destruct (steps_run (steps a) m (steps_kind a) (steps_distinct a H1)) as (m' & HF & HS & HG). rewrite <- outer_fold in HF. rewrite HF in HV.
  assert (HKeys : forall k, In k (map key_of (steps a)) -> In k validation_keywords).
  { intros k Hk. apply in_map_iff in Hk as ([[rt k'] x] & <- & Hin). change (key_of (rt, k', x)) with k'.
    apply (entries_key a k' x). rewrite <- steps_entries. apply in_map_iff. exists (rt, k', x). auto. }
  assert (HTy : mget "type" m' = mget "type" m) by (apply HS; intros HH; apply HKeys in HH; cbn in HH; intuition discriminate).
  destruct a as [a1 a2 a3 a4 a5 a6 a7 [i|]]; cbn [va_inner] in *.
  2:{ rewrite (outer_enforces _ _ _ _ HT H1 HF HTy HG HV). now destruct v. }
  destruct HI as (HP & it & Hit & HRi).
  assert (Hit' : mget "items" m' = Some it) by (rewrite HS; [exact Hit|intros HH; apply HKeys in HH; cbn in HH; intuition discriminate]).
  assert (HP' : mget "prefixItems" m' = None) by (rewrite HS; [exact HP|intros HH; apply HKeys in HH; cbn in HH; intuition discriminate]).
  assert (HSc : is_schema it = true) by (destruct (says_types_unfold i it HRi) as (mi & -> & _); reflexivity).
  unfold apply_inner_validation, s_get in HV. rewrite Hit', HSc in HV. unfold s_get_mut_set, mhas in HV. rewrite Hit' in HV. cbn [fst] in HV.
  set (it' := add_mutators i it) in *.
  assert (HO : sat_outer E (VAttrs a1 a2 a3 a4 a5 a6 a7 (Some i)) v = true).
  { apply entries_sat. intros k x Hin. assert (Hk : In k validation_keywords) by (eapply entries_key; eauto).
    rewrite <- steps_entries in Hin. apply in_map_iff in Hin as ([[rt k'] x'] & [= <- <-] & Hin). change (key_of (rt, k', x')) with k' in *. cbn [snd].
    pose proof (steps_kind (VAttrs a1 a2 a3 a4 a5 a6 a7 (Some i))) as HK. rewrite Forall_forall in HK. specialize (HK _ Hin).
    set (m2 := mupd "items" (fun _ => it') m') in *.
    assert (HA : match rt with Some t => matches_type t (JObj m) | None => True end -> assertion E k' x' v = true).
    { intros HM. specialize (HG _ _ _ Hin HM). rewrite <- (kw_validation m2) by exact Hk. apply (proj1 (valid_kw E _ _) HV).
      unfold m2. rewrite mget_mupd. destruct (String.eqb_spec k' "items") as [->|]; [exfalso; cbn in Hk; intuition discriminate|exact HG]. }
    destruct rt as [t|]; [|now apply HA]. destruct HK as (_ & HRt & HVac).
    destruct (type_ok t v) eqn:ET; [|now apply HVac]. apply HA.
    assert (HT2 : mget "type" m2 = mget "type" m) by (unfold m2; rewrite mget_mupd; exact HTy).
    apply (matches_type_ext t m2 m); [now symmetry|].
    eapply (type_matches E m2 v); eauto. destruct HT as [[y Hy]|[y Hy]]; [left|right]; exists y; now rewrite HT2. }
  rewrite HO. cbn [andb]. destruct v as [| | | |l|]; try reflexivity.
  apply forallb_forall. intros y Hy. apply (IH i it y HRi). fold it'.
  assert (HKi : kw E (mupd "items" (fun _ => it') m') "items" it' (JArr l) = true).
  { apply (proj1 (valid_kw E _ _) HV). rewrite mget_mupd. cbn [String.eqb Ascii.eqb Bool.eqb]. now rewrite Hit'. }
  unfold kw in HKi. cbn [String.eqb Ascii.eqb Bool.eqb existsb assertion_names orb] in HKi. rewrite mget_mupd in HKi.
  cbn [String.eqb Ascii.eqb Bool.eqb] in HKi. rewrite HP' in HKi. cbn [skipn] in HKi. rewrite forallb_forall in HKi. now apply HKi.
Qed.

End Sem.
