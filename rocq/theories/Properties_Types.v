(** C43, C44: integers and maps. *)
From Coq Require Import String Ascii List ZArith Bool Lia DecimalString DecimalPos.
From Verif Require Import Json JsonFacts SchemaApi Validate ValidateFacts ValidateKw Pointer Private PrivateProps
  ShapeFacts Generate SerValue ValidationAttrs Types TypesShape Serde.
Import ListNotations.
Open Scope string_scope.
Open Scope list_scope.

(** ** C43. Integer schemas reject out of range numbers. *)
(** The types whose schema carries both bounds *)
Definition narrow (i : ity) : bool := match i with I8 | I16 | U8 | U16 => true | _ => false end.

Lemma int_runs {X St} (items : nat -> item X) m i g s (g' : gen rty St) :
  json_schema (info items) m (TInt i) g = Some (s, g') -> s = int_schema i.
Proof. destruct m; [discriminate|]. cbn. congruence. Qed.

Lemma nonzero_runs {X St} (items : nat -> item X) m i g s (g' : gen rty St) :
  json_schema (info items) m (TNonZero i) g = Some (s, g') -> s = nonzero_schema i.
Proof.
  destruct m as [|[|m]]; [discriminate|discriminate|]. cbn. unfold nonzero_schema.
  destruct (is_signed i); congruence.
Qed.

Lemma bounds_agree i :
  (lower i = Some (fst (int_range i)) \/ (lower i = None /\ is_signed i = true))
  /\ (upper i = Some (snd (int_range i)) \/ (upper i = None /\ narrow i = false)).
Proof. destruct i; cbn; auto. Qed.

(** Whatever the generator's state, everything accepted is an integer, not negative for an unsigned
    type, and in the type's range for 8 and 16 bit types (also when written as a float). *)
Theorem C43_out_of_range_rejected : forall (X St : Type) (items : nat -> item X) m i g s (g' : gen rty St) E v,
  json_schema (info items) m (TInt i) g = Some (s, g') ->
  valid D2020 E s v = true ->
  exists n, v = JNum n /\ num_integral n = true
    /\ (is_signed i = false -> num_leb (NInt 0) n = true)
    /\ (narrow i = true -> num_leb (NInt (fst (int_range i))) n = true
                           /\ num_leb n (NInt (snd (int_range i))) = true).
Proof.
  intros X St items m i g s g' E v H HV. apply int_runs in H as ->. rewrite valid_int in HV.
  destruct v as [| |n| | |]; try discriminate. apply andb_prop in HV as [HV H4]. apply andb_prop in HV as [HV H3].
  apply andb_prop in HV as [H1 H2]. exists n. refine (conj eq_refl (conj H1 (conj _ _))).
  - intros HS. destruct i; try discriminate; exact H3.
  - intros HN. destruct i; try discriminate; split; assumption.
Qed.
Print Assumptions C43_out_of_range_rejected.

(** For these types the accepted integers are exactly those of the range; formats that are not
    asserted, or are satisfied, change nothing. *)
Theorem C43_exact_range : forall (X St : Type) (items : nat -> item X) m i g s (g' : gen rty St) E z,
  json_schema (info items) m (TInt i) g = Some (s, g') -> narrow i = true ->
  e_fmt E (int_format i) (JNum (NInt z)) = true ->
  (valid D2020 E s (JNum (NInt z)) = true <-> (fst (int_range i) <= z <= snd (int_range i))%Z).
Proof.
  intros X St items m i g s g' E z H HN HF. apply int_runs in H as ->. rewrite valid_int, HF.
  destruct i; try discriminate; cbn [num_integral andb lower upper above below int_range fst snd];
    rewrite !num_leb_int, andb_true_iff, !Z.leb_le; lia.
Qed.
Print Assumptions C43_exact_range.

(** No integer of the type is rejected. *)
Theorem C43_in_range_accepted : forall (X St : Type) (items : nat -> item X) m i g s (g' : gen rty St) E z,
  json_schema (info items) m (TInt i) g = Some (s, g') ->
  e_fmt E (int_format i) (JNum (NInt z)) = true ->
  (fst (int_range i) <= z <= snd (int_range i))%Z -> valid D2020 E s (JNum (NInt z)) = true.
Proof.
  intros X St items m i g s g' E z H HF HZ. apply int_runs in H as ->. rewrite valid_int, HF.
  destruct i; cbn [num_integral andb lower upper above below int_range fst snd] in *;
    rewrite ?num_leb_int, ?andb_true_iff, ?Z.leb_le; repeat split; cbn in HZ; lia.
Qed.
Print Assumptions C43_in_range_accepted.

(** The NonZero types also reject zero, and accept the other integers of the type. *)
Theorem C43_nonzero : forall (X St : Type) (items : nat -> item X) m i g s (g' : gen rty St) E,
  json_schema (info items) m (TNonZero i) g = Some (s, g') ->
  (forall v, valid D2020 E s v = true ->
     valid D2020 E (int_schema i) v = true /\ exists n, v = JNum n /\ num_eqb n (NInt 0) = false)
  /\ (forall z, e_fmt E (int_format i) (JNum (NInt z)) = true ->
        (fst (int_range i) <= z <= snd (int_range i))%Z -> z <> 0%Z -> valid D2020 E s (JNum (NInt z)) = true).
Proof.
  intros X St items m i g s g' E H. apply nonzero_runs in H as ->. split.
  - intros v HV. rewrite valid_nonzero in HV. rewrite valid_int. destruct v as [| |n| | |]; try discriminate.
    rewrite !andb_true_iff in HV. destruct HV as ((((H1 & H2) & H3) & H4) & H5).
    rewrite H1, H2, H4. cbn [andb].
    destruct (is_signed i) eqn:S; cbn [negb orb] in H5.
    + rewrite H3. split; [reflexivity|]. exists n. split; [reflexivity|]. now destruct (num_eqb n (NInt 0)).
    + assert (HL : lower i = Some 0%Z) by (destruct i; try discriminate; reflexivity). rewrite HL. cbn [above] in *.
      assert (HG : num_leb (NInt 0) n = true /\ num_eqb n (NInt 0) = false).
      { unfold num_leb, num_eqb, num_cmp in *. cbn [num_me] in *. destruct (num_me n) as [a e].
        rewrite (Z.min_comm e 0). set (f := Z.min 0 e) in *.
        assert (HP : (0 < 2 ^ (0 - f))%Z) by (apply Z.pow_pos_nonneg; lia).
        set (p := (2 ^ (0 - f))%Z) in *. set (q := (2 ^ (e - f))%Z) in *.
        destruct (Z.compare_spec (1 * p) (a * q)); try discriminate;
          (split; [destruct (Z.compare_spec (0 * p) (a * q)); auto; lia|];
           destruct (Z.compare_spec (a * q) (0 * p)); auto; lia). }
      destruct HG as [HG1 HG2]. rewrite HG1. split; [reflexivity|]. now exists n.
  - intros z HF HZ NZ. rewrite valid_nonzero, HF.
    destruct i; cbn [num_integral andb lower upper above below int_range fst snd is_signed negb orb] in *;
      unfold num_eqb, num_cmp; cbn [num_me]; rewrite ?num_leb_int, ?andb_true_iff, ?Z.leb_le;
      repeat split; cbn in HZ; try lia;
      rewrite Z.min_id, Z.sub_diag; cbn [Z.pow]; rewrite !Z.mul_1_r; destruct (Z.compare_spec z 0); auto; lia.
Qed.
Print Assumptions C43_nonzero.

(** The wider types have no upper bound (and the wider signed types no bound at all): the property
    does not extend to them. *)
Theorem C43_wide_types_unbounded : forall E i z, narrow i = false -> (is_signed i = false -> (0 <= z)%Z) ->
  e_fmt E (int_format i) (JNum (NInt z)) = true ->
  valid D2020 E (int_schema i) (JNum (NInt z)) = true.
Proof.
  intros E i z HN HS HF. rewrite valid_int, HF. destruct i; try discriminate;
    cbn [num_integral andb lower upper above below]; rewrite ?num_leb_int, ?andb_true_r; try reflexivity;
    apply Z.leb_le, HS; reflexivity.
Qed.
Print Assumptions C43_wide_types_unbounded.

Definition lax_env : env := Env (fun _ _ => Res true none_ev) (fun _ _ => true) (fun _ _ => true).
Example C43_example :
  valid D2020 lax_env (int_schema I8) (JNum (NInt 127)) = true
  /\ valid D2020 lax_env (int_schema I8) (JNum (NInt 128)) = false
  /\ valid D2020 lax_env (int_schema U16) (JNum (NFlt 1 (-1))) = false
  /\ valid D2020 lax_env (nonzero_schema U8) (JNum (NInt 0)) = false.
Proof. repeat split; reflexivity. Qed.

(** ** C44. Map schemas constrain keys and values. *)
(** The keys a key schema admits, as far as the schema's type says so. The schema is read as a list
    of alternatives: its "anyOf" or itself. *)
Inductive admits (E : env) (o : map_t) (n : string) : Prop :=
| AdmitPattern p : mget "type" o = Some (JStr "string") -> mget "pattern" o = Some (JStr p) -> e_rx E p n = true -> admits E o n
| AdmitEnum l : mget "type" o = Some (JStr "string") -> (forall p, mget "pattern" o <> Some (JStr p)) ->
    mget "enum" o = Some (JArr (map JStr l)) -> In n l -> admits E o n
| AdmitString : mget "type" o = Some (JStr "string") -> (forall p, mget "pattern" o <> Some (JStr p)) ->
    (forall l, mget "enum" o <> Some (JArr (map JStr l))) -> admits E o n
| AdmitUnsigned : mget "type" o = Some (JStr "integer") -> mget "minimum" o = Some (JNum (NInt 0)) ->
    e_rx E "^\d+$" n = true -> admits E o n
| AdmitSigned : mget "type" o = Some (JStr "integer") -> mget "minimum" o <> Some (JNum (NInt 0)) ->
    e_rx E "^-?\d+$" n = true -> admits E o n
| AdmitOther : mget "type" o <> Some (JStr "string") -> mget "type" o <> Some (JStr "integer") -> admits E o n.

Definition alternatives (ks : json) : list map_t :=
  match key_options ks with Some l => l | None => [] end.

Lemma omap_as_str l : omap as_str l = match omap as_str l with Some es => Some es | None => None end.
Proof. now destruct (omap as_str l). Qed.

Lemma omap_as_str_Some l es : omap as_str l = Some es <-> l = map JStr es.
Proof.
  revert es. induction l as [|x l IH]; intros es; cbn.
  - split; [now intros [= <-]|]. destruct es; [auto|discriminate].
  - destruct x; cbn; try (split; [discriminate|destruct es; discriminate]).
    destruct (omap as_str l) as [es'|] eqn:EO.
    + split.
      * intros [= <-]. cbn. f_equal. now apply IH.
      * destruct es as [|e es]; [discriminate|]. intros [= -> H]. f_equal. f_equal. apply IH in H. congruence.
    + split; [discriminate|]. destruct es as [|e es]; [discriminate|]. intros [= -> H]. apply IH in H. discriminate.
Qed.

(** What one alternative adds to the kinds *)
Definition kinds_admit (E : env) (k : key_kinds) (n : string) : Prop := key_allowed E k n = true.

Section Maps.
Variable E : env.
Hypothesis digits_signed : forall n, e_rx E "^\d+$" n = true -> e_rx E "^-?\d+$" n = true.

Lemma key_allowed_spec k n : key_allowed E k n = true <->
  k_other k = true \/ In n (k_props k) \/ (exists p, In p (k_patterns k) /\ e_rx E p n = true)
  \/ (k_ints k = 1%nat /\ e_rx E digits_pattern n = true) \/ (k_ints k >= 2 /\ e_rx E signed_pattern n = true).
Proof.
  unfold key_allowed, all_patterns. rewrite existsb_app, !orb_true_iff, !existsb_exists. split.
  - intros [[H|(x & Hx & H)]|[(x & Hx & H)|(x & Hx & H)]]; [auto| | |].
    + apply String.eqb_eq in H. subst. auto.
    + right. right. left. eauto.
    + destruct (k_ints k) as [|[|j]]; [contradiction| |]; destruct Hx as [<-|[]].
      * right. right. right. left. auto.
      * right. right. right. right. split; [lia|exact H].
  - intros [H|[H|[(p & Hp & H)|[[H1 H]|[H1 H]]]]]; [auto| | | |].
    + left. right. exists n. now rewrite String.eqb_refl.
    + right. left. eauto.
    + right. right. rewrite H1. exists digits_pattern. split; [now left|exact H].
    + right. right. destruct (k_ints k) as [|[|j]]; [lia|lia|]. exists signed_pattern. split; [now left|exact H].
Qed.

Lemma type_match (o : map_t) t :
  match mget "type" o with Some (JStr x) => String.eqb x t | _ => false end = true <-> mget "type" o = Some (JStr t).
Proof.
  destruct (mget "type" o) as [[| | |x| |]|]; split; try discriminate.
  - intros H. apply String.eqb_eq in H. congruence.
  - intros [= ->]. apply String.eqb_refl.
Qed.

Lemma add_option_spec k o n : k_ints k <= 2 -> key_allowed E (add_option k o) n = true <-> key_allowed E k n = true \/ admits E o n.
Proof.
  intros HI. unfold add_option.
  destruct (match mget "type" o with Some (JStr x) => String.eqb x "string" | _ => false end) eqn:ES.
  - apply type_match in ES.
    assert (EP : (exists p, mget "pattern" o = Some (JStr p)) \/ (forall p, mget "pattern" o <> Some (JStr p))).
    { destruct (mget "pattern" o) as [[| | |p| |]|]; eauto; right; intros p; discriminate. }
    destruct EP as [[p EP]|EP].
    + rewrite EP. rewrite !key_allowed_spec. cbn [k_other k_ints k_patterns k_props]. split.
      * intros [H|[H|[(q & Hq & H)|[H|H]]]]; [tauto|tauto| |tauto|tauto].
        apply in_app_or in Hq as [Hq|[<-|[]]]; [left; right; right; left; eauto|].
        right. eapply AdmitPattern; eauto.
      * intros [[H|[H|[(q & Hq & H)|[H|H]]]]|H]; [tauto|tauto| |tauto|tauto|].
        -- right. right. left. exists q. rewrite in_app_iff. auto.
        -- right. right. left. exists p. rewrite in_app_iff. split; [right; now left|].
           destruct H; try congruence.
    + replace (match mget "pattern" o with Some (JStr p) => Some p | _ => None end) with (@None string)
        by (destruct (mget "pattern" o) as [[| | |p| |]|]; try reflexivity; exfalso; eapply EP; eauto).
      destruct (match mget "enum" o with Some (JArr a) => omap as_str a | _ => None end) as [es|] eqn:EE.
      * assert (EN : mget "enum" o = Some (JArr (map JStr es))).
        { destruct (mget "enum" o) as [[| | | |a|]|]; try discriminate. apply omap_as_str_Some in EE. now subst. }
        rewrite !key_allowed_spec. cbn [k_other k_ints k_patterns k_props]. rewrite in_app_iff. split.
        -- intros [H|[[H|H]|H]]; [tauto|tauto| |tauto]. right. eapply AdmitEnum; eauto.
        -- intros [H|H]; [tauto|]. right. left. right. destruct H; try congruence.
           rewrite EN in H1. injection H1 as H1. assert (l = es); [|now subst].
           apply (f_equal (omap as_str)) in H1. rewrite (proj2 (omap_as_str_Some _ es) eq_refl) in H1.
           rewrite (proj2 (omap_as_str_Some _ l) eq_refl) in H1. congruence.
      * rewrite !key_allowed_spec. cbn [k_other k_ints k_patterns k_props]. split; [|tauto].
        intros _. right. apply AdmitString; auto. intros l HL. rewrite HL in EE.
        rewrite (proj2 (omap_as_str_Some _ l) eq_refl) in EE. discriminate.
  - assert (NS : mget "type" o <> Some (JStr "string")) by (intros H; apply type_match in H; congruence).
    destruct (match mget "type" o with Some (JStr x) => String.eqb x "integer" | _ => false end) eqn:EI.
    + apply type_match in EI.
      assert (EM : match mget "minimum" o with Some (JNum (NInt 0)) => true | _ => false end = true
                   <-> mget "minimum" o = Some (JNum (NInt 0))).
      { destruct (mget "minimum" o) as [[| |[z|? ?]| | |]|]; try (split; discriminate).
        destruct z; split; try discriminate; reflexivity. }
      destruct (match mget "minimum" o with Some (JNum (NInt 0)) => true | _ => false end) eqn:E0.
      * assert (E1 : mget "minimum" o = Some (JNum (NInt 0))) by now apply EM.
        rewrite !key_allowed_spec. cbn [k_other k_ints k_patterns k_props]. split.
        -- intros [H|[H|[H|[[H1 H]|[H1 H]]]]]; [tauto|tauto|tauto| |].
           ++ right. apply AdmitUnsigned; auto.
           ++ left. right. right. right. right. split; [lia|exact H].
        -- intros [[H|[H|[H|[[H1 H]|[H1 H]]]]]|H]; [tauto|tauto|tauto| | |].
           ++ right. right. right. left. split; [lia|exact H].
           ++ right. right. right. right. split; [lia|exact H].
           ++ destruct H as [p H|l H|H|H HM HR|H HM HR|H H']; try congruence.
              destruct (Nat.le_gt_cases 2 (k_ints k)).
              ** right. right. right. right. split; [lia|]. now apply digits_signed.
              ** right. right. right. left. split; [lia|exact HR].
      * assert (E1 : mget "minimum" o <> Some (JNum (NInt 0))) by (intros H; apply EM in H; discriminate).
        rewrite !key_allowed_spec. cbn [k_other k_ints k_patterns k_props]. split.
        -- intros [H|[H|[H|[[H1 H]|[H1 H]]]]]; [tauto|tauto|tauto|lia|].
           right. apply AdmitSigned; auto.
        -- intros [[H|[H|[H|[[H1 H]|[H1 H]]]]]|H]; [tauto|tauto|tauto| | |].
           ++ right. right. right. right. split; [lia|]. now apply digits_signed.
           ++ right. right. right. right. split; [lia|exact H].
           ++ destruct H as [p H|l H|H|H HM HR|H HM HR|H H']; try congruence.
              right. right. right. right. split; [lia|exact HR].
    + assert (NI : mget "type" o <> Some (JStr "integer")) by (intros H; apply type_match in H; congruence).
      rewrite !key_allowed_spec. cbn [k_other k_ints k_patterns k_props]. split; [|tauto].
      intros _. right. now apply AdmitOther.
Qed.

Lemma add_option_ints k o : k_ints k <= 2 -> k_ints (add_option k o) <= 2.
Proof.
  intros H. unfold add_option.
  destruct (match mget "type" o with Some (JStr x) => String.eqb x "string" | _ => false end).
  - destruct (match mget "pattern" o with Some (JStr p) => Some p | _ => None end); [exact H|].
    destruct (match mget "enum" o with Some (JArr a) => omap as_str a | _ => None end); exact H.
  - destruct (match mget "type" o with Some (JStr x) => String.eqb x "integer" | _ => false end); [|exact H].
    cbn [k_ints]. destruct (match mget "minimum" o with Some (JNum (NInt 0)) => true | _ => false end); lia.
Qed.

Lemma add_options_spec l n : forall k, k_ints k <= 2 ->
  (key_allowed E (fold_left add_option l k) n = true <-> key_allowed E k n = true \/ exists o, In o l /\ admits E o n).
Proof.
  induction l as [|o l IH]; intros k HI; cbn [fold_left].
  - split; [auto|]. intros [H|(o & [] & _)]. exact H.
  - rewrite IH by now apply add_option_ints. rewrite add_option_spec by exact HI. split.
    + intros [[H|H]|(o' & Ho & H)]; [auto| |].
      * right. exists o. split; [now left|exact H].
      * right. exists o'. split; [now right|exact H].
    + intros [H|(o' & [<-|Ho] & H)]; [auto|auto|]. right. eauto.
Qed.

Theorem map_schema_spec path defs ks vs v :
  valid D2020 E (map_schema path defs ks vs) v = true <->
  exists o, v = JObj o /\ forall n x, In (n, x) o ->
    valid D2020 E vs x = true
    /\ (key_options ks = None
        \/ exists a, In a (alternatives ks) /\ admits E (resolve_option path defs a) n).
Proof.
  unfold map_schema, alternatives. destruct (key_options ks) as [l|] eqn:EK.
  - rewrite valid_map. destruct v as [| | | | |o]; try (split; [discriminate|intros (o & H & _); discriminate]).
    rewrite forallb_forall. split.
    + intros H. exists o. split; [reflexivity|]. intros n x Hin. specialize (H _ Hin). cbn [fst snd] in H.
      apply andb_prop in H as [H1 H2]. split; [exact H2|]. right.
      assert (HI : k_ints (KeyKinds false 0 [] []) <= 2) by (cbn; lia).
      apply (add_options_spec _ _ _ HI) in H1 as [H1|(a & Ha & H1)]; [discriminate|].
      apply in_map_iff in Ha as (b & <- & Hb). eauto.
    + intros (o' & [= <-] & H) [n x] Hin. cbn [fst snd]. destruct (H n x Hin) as [H1 [H2|(a & Ha & H2)]]; [discriminate|].
      apply andb_true_intro. split; [|exact H1]. apply add_options_spec; [cbn; lia|]. right.
      exists (resolve_option path defs a). split; [now apply in_map|exact H2].
  - change (obj [("additionalProperties", vs); ("type", JStr "object")])
      with (obj [("type", JStr "object"); ("additionalProperties", vs)]). rewrite valid_object_additional.
    destruct v as [| | | | |o]; try (split; [discriminate|intros (o & H & _); discriminate]).
    rewrite forallb_forall. split.
    + intros H. exists o. split; [reflexivity|]. intros n x Hin. split; [exact (H _ Hin)|auto].
    + intros (o' & [= <-] & H) [n x] Hin. apply (H n x Hin).
Qed.
End Maps.

(** The two patterns mean: decimal digits, with an optional minus sign. *)
Fixpoint all_digits (s : string) : bool :=
  match s with
  | EmptyString => true
  | String a s' => (48 <=? nat_of_ascii a)%nat && (nat_of_ascii a <=? 57)%nat && all_digits s'
  end.
Definition is_digits (s : string) : bool := negb (String.eqb s "") && all_digits s.
Definition is_decimal (s : string) : bool :=
  match s with String "-" s' => is_digits s' | _ => is_digits s end.
Definition decimal_patterns (E : env) : Prop :=
  (forall s, e_rx E "^\d+$" s = is_digits s) /\ (forall s, e_rx E "^-?\d+$" s = is_decimal s).

Lemma digits_decimal s : is_digits s = true -> is_decimal s = true.
Proof.
  destruct s as [|a s]; [discriminate|]. intros H. unfold is_decimal.
  destruct a as [[] [] [] [] [] [] [] []]; try exact H; discriminate H.
Qed.

Lemma decimal_digits_signed E : decimal_patterns E -> forall n, e_rx E "^\d+$" n = true -> e_rx E "^-?\d+$" n = true.
Proof. intros [H1 H2] n. rewrite H1, H2. apply digits_decimal. Qed.

(** How a map type uses the key type's own schema and the value's subschema *)
Lemma map_runs {X St} (items : nat -> item X) m k v g s (g' : gen rty St) :
  json_schema (info items) m (TMap k v) g = Some (s, g') ->
  exists m' ks g1 vs g2,
    json_schema (info items) m' k (emit (EvRun (TMap k v)) g) = Some (ks, g1)
    /\ subschema_for (info items) (json_schema (info items) m') v g1 = Some (vs, g2)
    /\ s = map_schema (s_path (g_set g2)) (g_defs g2) ks vs.
Proof.
  destruct m as [|m]; [discriminate|]. cbn [json_schema t_body info body run_prog].
  destruct (json_schema (info items) m k _) as [[ks g1]|] eqn:E1; [|discriminate].
  destruct (subschema_for _ _ v g1) as [[vs g2]|] eqn:E2; [|discriminate]. intros [= <- <-].
  exists m, ks, g1, vs, g2. auto.
Qed.

(** Each map: the accepted values are the objects whose entries have an accepted value and a key
    admitted by one of the alternatives of the key schema; an alternative that is a reference to a
    definition is replaced by the definition. *)
Theorem C44_map_meaning : forall (X St : Type) (items : nat -> item X) m k v g s (g' : gen rty St) E,
  decimal_patterns E ->
  json_schema (info items) m (TMap k v) g = Some (s, g') ->
  exists m' ks g1 vs g2,
    json_schema (info items) m' k (emit (EvRun (TMap k v)) g) = Some (ks, g1)
    /\ subschema_for (info items) (json_schema (info items) m') v g1 = Some (vs, g2)
    /\ forall j, valid D2020 E s j = true <->
         exists o, j = JObj o /\ forall n x, In (n, x) o ->
           valid D2020 E vs x = true
           /\ (key_options ks = None
               \/ exists a, In a (alternatives ks)
                    /\ admits E (resolve_option (s_path (g_set g2)) (g_defs g2) a) n).
Proof.
  intros X St items m k v g s g' E HE H. apply map_runs in H as (m' & ks & g1 & vs & g2 & H1 & H2 & ->).
  exists m', ks, g1, vs, g2. refine (conj H1 (conj H2 _)). intros j.
  apply map_schema_spec. now apply decimal_digits_signed.
Qed.
Print Assumptions C44_map_meaning.

(** Keys of an integer type are decimal numbers, without a sign if the type is unsigned. *)
Theorem C44_integer_keys : forall (X St : Type) (items : nat -> item X) m i v g s (g' : gen rty St) E,
  decimal_patterns E ->
  json_schema (info items) m (TMap (TInt i) v) g = Some (s, g') ->
  exists m' (g1 : gen rty St) vs g2,
    subschema_for (info items) (json_schema (info items) m') v g1 = Some (vs, g2)
    /\ forall j, valid D2020 E s j = true <->
         exists o, j = JObj o /\ forall n x, In (n, x) o ->
           valid D2020 E vs x = true /\ (if is_signed i then is_decimal n else is_digits n) = true.
Proof.
  intros X St items m i v g s g' E HE H.
  destruct (C44_map_meaning X St items m _ v g s g' E HE H) as (m' & ks & g1 & vs & g2 & H1 & H2 & H3).
  apply int_runs in H1 as ->. exists m', g1, vs, g2. split; [exact H2|]. intros j. rewrite H3.
  assert (HA : alternatives (int_schema i) = [mk (int_entries i)]) by (destruct i; reflexivity).
  assert (HK : key_options (int_schema i) <> None) by (destruct i; discriminate).
  assert (HR : resolve_option (s_path (g_set g2)) (g_defs g2) (mk (int_entries i)) = mk (int_entries i)) by (destruct i; reflexivity).
  assert (HAd : forall n, admits E (mk (int_entries i)) n <-> (if is_signed i then is_decimal n else is_digits n) = true).
  { intros n. destruct HE as [HE1 HE2]. rewrite <- HE1, <- HE2.
    assert (HT : mget "type" (mk (int_entries i)) = Some (JStr "integer")) by (destruct i; reflexivity). split.
    - intros [p H4|l H4|H4|H4 H5 H6|H4 H5 H6|H4 H5]; try congruence.
      + destruct i; try exact H6; vm_compute in H5; discriminate.
      + destruct i; try exact H6; vm_compute in H5; congruence.
    - destruct (is_signed i) eqn:ES; intros H4.
      + apply AdmitSigned; [exact HT| |exact H4]. destruct i; try discriminate; intros H5; vm_compute in H5; discriminate.
      + apply AdmitUnsigned; [exact HT| |exact H4]. destruct i; try discriminate; reflexivity. }
  split.
  - intros (o & -> & H0). exists o. split; [reflexivity|]. intros n x Hin. destruct (H0 n x Hin) as [H4 [H5|(a & Ha & H5)]]; [contradiction|].
    rewrite HA in Ha. destruct Ha as [<-|[]]. rewrite HR in H5. split; [exact H4|]. now apply HAd.
  - intros (o & -> & H0). exists o. split; [reflexivity|]. intros n x Hin. destruct (H0 n x Hin) as [H4 H5].
    split; [exact H4|]. right. rewrite HA. exists (mk (int_entries i)). split; [now left|]. rewrite HR. now apply HAd.
Qed.
Print Assumptions C44_integer_keys.

(** The other direction of the form of keys: every key an integer key type produces is admitted. *)
Lemma digits_of_uint d : all_digits (NilEmpty.string_of_uint d) = true.
Proof. induction d; auto. Qed.
Lemma show_int_form z : (if (z <? 0)%Z then is_decimal (show_int z) else is_digits (show_int z)) = true.
Proof.
  unfold show_int, NilZero.string_of_int, NilZero.string_of_uint, is_digits.
  destruct z as [|p|p]; [reflexivity| |]; cbn [Z.ltb Z.compare Z.to_int].
  - destruct (Pos.to_uint p) eqn:EP; try (cbn [String.eqb negb andb]; apply (digits_of_uint (_ u))).
    exfalso. apply (DecimalPos.Unsigned.to_uint_nonnil p). exact EP.
  - unfold is_decimal, is_digits.
    destruct (Pos.to_uint p) eqn:EP; try (cbn [String.eqb negb andb]; apply (digits_of_uint (_ u))).
    exfalso. apply (DecimalPos.Unsigned.to_uint_nonnil p). exact EP.
Qed.

Theorem C44_integer_keys_admitted : forall i z, in_range i z = true ->
  (if is_signed i then is_decimal (show_int z) else is_digits (show_int z)) = true.
Proof.
  intros i z H. pose proof (show_int_form z) as HS. unfold in_range in H. apply andb_prop in H as [H1 H2].
  apply Z.leb_le in H1. destruct (Z.ltb_spec z 0).
  - destruct i; cbn [is_signed]; try exact HS; cbn in H1; lia.
  - destruct (is_signed i); [now apply digits_decimal|exact HS].
Qed.
Print Assumptions C44_integer_keys_admitted.

(** Keys of strings are unconstrained. *)
Theorem C44_string_keys : forall (X St : Type) (items : nat -> item X) m v g s (g' : gen rty St) E,
  decimal_patterns E ->
  json_schema (info items) m (TMap TStr v) g = Some (s, g') ->
  exists m' (g1 : gen rty St) vs g2,
    subschema_for (info items) (json_schema (info items) m') v g1 = Some (vs, g2)
    /\ forall j, valid D2020 E s j = true <->
         exists o, j = JObj o /\ forall n x, In (n, x) o -> valid D2020 E vs x = true.
Proof.
  intros X St items m v g s g' E HE H.
  destruct (C44_map_meaning X St items m _ v g s g' E HE H) as (m' & ks & g1 & vs & g2 & H1 & H2 & H3).
  destruct m' as [|m']; [discriminate|]. cbn in H1. injection H1 as <- <-.
  exists (S m'), (emit (EvRet TStr) (emit (EvRun TStr) (emit (EvRun (TMap TStr v)) g))), vs, g2.
  split; [exact H2|]. intros j. rewrite H3. split; intros (o & -> & H4); exists o; (split; [reflexivity|]); intros n x Hin.
  - apply (H4 n x Hin).
  - split; [apply (H4 n x Hin)|]. right. exists (mk [("type", JStr "string")]). split; [now left|].
    apply AdmitString; [reflexivity| |]; discriminate.
Qed.
Print Assumptions C44_string_keys.

(** Keys of an enum with unit variants are the names of the variants (in the contract's spelling). *)
Lemma insert_all_get l : forall s k, ~ In k (map fst l) -> mget k (ensure_obj (insert_all l s)) = mget k (ensure_obj s).
Proof.
  induction l as [|[a x] l IH]; intros s k H; [reflexivity|].
  change (insert_all ((a, x) :: l) s) with (insert_all l (insert a x s)). rewrite IH by (intros H'; apply H; now right).
  unfold insert. change (ensure_obj (JObj (mset a x (ensure_obj s)))) with (mset a x (ensure_obj s)). rewrite mget_mset. destruct (String.eqb_spec k a); [|reflexivity].
  subst. exfalso. apply H. now left.
Qed.
Lemma insert_all_obj l s m : s = JObj m -> exists m', insert_all l s = JObj m'.
Proof.
  revert s m. induction l as [|[a x] l IH]; intros s m ->; [now exists m|]. 
  change (insert_all ((a, x) :: l) (JObj m)) with (insert_all l (insert a x (JObj m))). eapply IH. reflexivity.
Qed.

Theorem C44_enum_keys : forall (X St : Type) (items : nat -> item X) m n cs ts v g s (g' : gen rty St) E deny vs meta,
  decimal_patterns E ->
  it_decl (items n) cs ts = Decl deny (DEnum External vs) meta -> vs <> [] -> forallb plain_unit vs = true ->
  (forall k, In k (map fst meta) -> ~ In k ["type"; "pattern"; "enum"; "anyOf"; "$ref"]) ->
  json_schema (info items) m (TMap (TAdt n cs ts) v) g = Some (s, g') ->
  exists m' (g1 : gen rty St) vs' g2,
    subschema_for (info items) (json_schema (info items) m') v g1 = Some (vs', g2)
    /\ forall j, valid D2020 E s j = true <->
         exists o, j = JObj o /\ forall key x, In (key, x) o ->
           valid D2020 E vs' x = true
           /\ exists w, In w vs /\ included (v_skip_de w) (v_skip_ser w) (s_contract (g_set g)) = true
                 /\ key = v_name (s_contract (g_set g)) w.
Proof.
  intros X St items m n cs ts v g s g' E deny vs meta HE HD HV HU HM H.
  destruct (C44_map_meaning X St items m _ v g s g' E HE H) as (m' & ks & g1 & vs' & g2 & H1 & H2 & H3).
  assert (HKS : ks = insert_all meta (unit_names (s_contract (g_set g)) vs)).
  { destruct m' as [|m']; [discriminate|]. cbn [json_schema t_body info body run_prog] in H1. rewrite HD in H1.
    unfold decl_prog in H1. cbn [d_data d_meta d_deny data_prog] in H1. unfold enum_prog in H1.
    assert (HF1 : filter plain_unit vs = vs).
    { clear -HU. induction vs as [|w vs IH]; [reflexivity|]. cbn in HU. apply andb_prop in HU as [H1 H2].
      cbn. rewrite H1. f_equal. auto. }
    assert (HF2 : filter (fun v0 => negb (plain_unit v0)) vs = []).
    { clear -HU. induction vs as [|w vs IH]; [reflexivity|]. cbn in HU. apply andb_prop in HU as [H1 H2].
      cbn. rewrite H1. cbn. auto. }
    rewrite HF1, HF2 in H1. destruct vs as [|w vs]; [contradiction|]. cbn in H1. congruence. }
  assert (HN : forall k, In k ["type"; "pattern"; "enum"; "anyOf"; "$ref"] ->
    mget k (ensure_obj ks) = mget k (ensure_obj (unit_names (s_contract (g_set g)) vs))).
  { intros k Hk. rewrite HKS. apply insert_all_get. intros HI. exact (HM k HI Hk). }
  destruct (insert_all_obj meta (unit_names (s_contract (g_set g)) vs) _ eq_refl) as [mk' EK].
  rewrite EK in HKS. subst ks. change (ensure_obj (JObj mk')) with mk' in HN.
  assert (G1 : mget "type" mk' = Some (JStr "string")) by (rewrite HN by (cbn; tauto); reflexivity).
  assert (G2 : mget "pattern" mk' = None) by (rewrite HN by (cbn; tauto); reflexivity).
  assert (G4 : mget "anyOf" mk' = None) by (rewrite HN by (cbn; tauto); reflexivity).
  assert (G5 : mget "$ref" mk' = None) by (rewrite HN by (cbn; tauto); reflexivity).
  set (ns := map (v_name (s_contract (g_set g))) (filter (fun v => included (v_skip_de v) (v_skip_ser v) (s_contract (g_set g))) vs)).
  assert (G3 : mget "enum" mk' = Some (JArr (map JStr ns))).
  { rewrite HN by (cbn; tauto). unfold ns. rewrite List.map_map. reflexivity. }
  assert (HA : alternatives (JObj mk') = [mk']).
  { unfold alternatives, key_options. cbn [s_get]. rewrite G4. reflexivity. }
  assert (HR : resolve_option (s_path (g_set g2)) (g_defs g2) mk' = mk') by (unfold resolve_option; now rewrite G5).
  assert (HAd : forall key, admits E mk' key <-> In key ns).
  { intros key. split.
    - intros [p H4 H5|l H4 H5 H6 H7|H4 H5 H6|H4|H4|H4]; try congruence.
      + rewrite G3 in H6. injection H6 as H6. apply (f_equal (omap as_str)) in H6.
        rewrite (proj2 (omap_as_str_Some _ ns) eq_refl), (proj2 (omap_as_str_Some _ l) eq_refl) in H6. congruence.
    - intros H4. eapply AdmitEnum; eauto. intros p. congruence. }
  exists m', g1, vs', g2. split; [exact H2|]. intros j. rewrite H3.
  assert (HW : forall key, In key ns <-> exists w, In w vs /\ included (v_skip_de w) (v_skip_ser w) (s_contract (g_set g)) = true
                 /\ key = v_name (s_contract (g_set g)) w).
  { intros key. unfold ns. rewrite in_map_iff. split.
    - intros (w & <- & Hw). apply filter_In in Hw as [Hw1 Hw2]. eauto.
    - intros (w & Hw1 & Hw2 & ->). exists w. split; [reflexivity|]. now apply filter_In. }
  split; intros (o & -> & H4); exists o; (split; [reflexivity|]); intros key x Hin; destruct (H4 key x Hin) as [H5 H6]; (split; [exact H5|]).
  - destruct H6 as [H6|(a & Ha & H6)].
    { unfold key_options in H6. cbn [s_get] in H6. rewrite G4 in H6. discriminate. }
    rewrite HA in Ha. destruct Ha as [<-|[]]. rewrite HR in H6. now apply HW, HAd.
  - right. exists mk'. rewrite HA, HR. split; [now left|]. now apply HAd, HW.
Qed.
Print Assumptions C44_enum_keys.

(** Not every map constrains its keys to the form the key type serializes to. A NonZero unsigned key
    type admits negative keys, because its minimum is 1 and not 0. *)
Definition no_items : nat -> item nat :=
  fun _ => Item "m" "T" None false (fun _ _ => Decl false (DStruct false Unit) []).
Definition set0 : settings unit := Settings "#/$defs" None [] false Serialize.
Definition run0 {X} (items : nat -> item X) (t : rty) : option json :=
  option_map fst (json_schema (info items) 20 t (new_gen set0 tt)).

Theorem C44_nonzero_keys_refuted : exists s, run0 no_items (TMap (TNonZero U8) TBool) = Some s
  /\ forall E, decimal_patterns E -> valid D2020 E s (JObj [("-1", JBool true)]) = true.
Proof.
  eexists. split; [vm_compute; reflexivity|]. intros E [HE1 HE2].
  match goal with |- valid D2020 E ?s _ = true => change s with (map_of_kinds (KeyKinds false 2 [] []) (type_schema "boolean")) end.
  rewrite valid_map. cbn [forallb fst snd]. unfold key_allowed, all_patterns, signed_pattern. cbn [k_other k_props k_patterns k_ints app existsb].
  rewrite HE2, valid_type_schema. reflexivity.
Qed.
Print Assumptions C44_nonzero_keys_refuted.

(** Keys of type bool are not constrained. *)
Theorem C44_bool_keys_refuted : exists s, run0 no_items (TMap TBool TBool) = Some s
  /\ forall E, valid D2020 E s (JObj [("maybe", JBool true)]) = true.
Proof.
  eexists. split; [vm_compute; reflexivity|]. intros E. reflexivity.
Qed.
Print Assumptions C44_bool_keys_refuted.

(** A key type that is a newtype around an enum whose name needs percent-encoding: the reference is
    not found among the definitions (it is looked up without decoding), so any key is accepted; with
    a plain name the keys are the variants. *)
Definition wrap_items (name : string) : nat -> item nat := fun i =>
  match i with
  | 0 => Item "m" name None false (fun _ _ => Decl false (DEnum External
           [Variant "A" "A" false false false Unit []; Variant "B" "B" false false false Unit []]) [])
  | _ => Item "m" "Key" None false (fun _ _ => Decl false (DStruct false
           (Newtype (Field "0" "0" (TAdt 0 [] []) false false None false None false no_vattrs []))) [])
  end.
Theorem C44_encoded_name_refuted :
  exists s, run0 (wrap_items "an enum") (TMap (TAdt 1 [] []) TBool) = Some s
  /\ forall E, valid D2020 E s (JObj [("C", JBool true)]) = true.
Proof. eexists. split; [vm_compute; reflexivity|]. intros E. reflexivity. Qed.
Print Assumptions C44_encoded_name_refuted.

Example C44_plain_name :
  exists s, run0 (wrap_items "AnEnum") (TMap (TAdt 1 [] []) TBool) = Some s
  /\ (forall E, valid D2020 E s (JObj [("A", JBool true)]) = true)
  /\ (forall E, valid D2020 E s (JObj [("C", JBool true)]) = false).
Proof. eexists. split; [vm_compute; reflexivity|]. split; intros E; reflexivity. Qed.

(** The hypotheses are met: a map from u8 to bool, and a pattern environment. *)
Definition decimal_env : env :=
  Env (fun _ _ => Res true none_ev) (fun p s => if String.eqb p "^\d+$" then is_digits s else if String.eqb p "^-?\d+$" then is_decimal s else true)
    (fun _ _ => true).
Example C44_example : decimal_patterns decimal_env
  /\ exists s, run0 no_items (TMap (TInt U8) TBool) = Some s
       /\ valid D2020 decimal_env s (JObj [("17", JBool true)]) = true
       /\ valid D2020 decimal_env s (JObj [("-1", JBool true)]) = false
       /\ valid D2020 decimal_env s (JObj [("x", JBool true)]) = false
       /\ valid D2020 decimal_env s (JObj [("17", JNull)]) = false.
Proof. split; [split; reflexivity|]. eexists. split; [vm_compute; reflexivity|]. repeat split; reflexivity. Qed.
