(** What the schemas of Types.v mean. *)
From Coq Require Import String Ascii List ZArith Bool Lia.
From Verif Require Import Json JsonFacts SchemaApi Validate ValidateFacts ValidateKw Private PrivateProps
  PrivateFlatten ShapeFacts Generate SerValue Types.
Import ListNotations.
Open Scope string_scope.
Open Scope list_scope.

Section Shape.
Variable E : env.
Notation ok_ := (valid D2020 E).

Ltac not_ctx' := intros HH; cbn in HH; repeat (destruct HH as [HH|HH]; [discriminate|]); exact HH.
Ltac no_dup := cbn [map fst app]; repeat (constructor; [not_ctx'|]); constructor.
Ltac kwc := unfold obj; rewrite valid_mk by no_dup; cbn [forallb fst snd app]; unfold kw;
  cbn [String.eqb Ascii.eqb Bool.eqb existsb assertion_names orb].

Lemma chk_type_str t v : chk_type D2020 (Some (JStr t)) None v = type_ok t v.
Proof. unfold chk_type. cbn [d_nullable D2020 andb]. apply orb_false_r. Qed.

Lemma valid_type_schema t v : ok_ (type_schema t) v = type_ok t v.
Proof. unfold type_schema. kwc. now rewrite chk_type_str, andb_true_r. Qed.

Lemma valid_formatted t f v : ok_ (formatted t f) v = type_ok t v && e_fmt E f v.
Proof. unfold formatted. kwc. rewrite chk_type_str, andb_true_r. reflexivity. Qed.

Lemma valid_char v : ok_ char_schema v = match v with JStr s => Z.eqb (char_count s) 1 | _ => false end.
Proof.
  unfold char_schema. kwc. rewrite chk_type_str. destruct v; try reflexivity. unfold assertion.
  cbn [type_ok String.eqb Ascii.eqb Bool.eqb andb]. rewrite !num_leb_int, andb_true_r.
  apply eq_true_iff_eq. rewrite andb_true_iff, !Z.leb_le, Z.eqb_eq. lia.
Qed.

(** The bounds of an integer schema *)
Definition lower (i : ity) : option Z :=
  match i with
  | I8 => Some (-128)%Z | I16 => Some (-32768)%Z
  | U8 | U16 | U32 | U64 | U128 | USize => Some 0%Z
  | _ => None
  end.
Definition upper (i : ity) : option Z :=
  match i with
  | I8 => Some 127%Z | I16 => Some 32767%Z | U8 => Some 255%Z | U16 => Some 65535%Z | _ => None
  end.
Definition above (b : option Z) (n : number) : bool := match b with Some z => num_leb (NInt z) n | None => true end.
Definition below (b : option Z) (n : number) : bool := match b with Some z => num_leb n (NInt z) | None => true end.

Lemma valid_int i v : ok_ (int_schema i) v =
  match v with
  | JNum n => num_integral n && e_fmt E (int_format i) v && above (lower i) n && below (upper i) n
  | _ => false
  end.
Proof.
  destruct i; unfold int_schema, int_bounds; kwc; rewrite chk_type_str; destruct v; try reflexivity;
    unfold assertion, jz, above, below, lower, upper; cbn [type_ok String.eqb Ascii.eqb Bool.eqb andb orb];
    rewrite ?andb_true_r, ?andb_assoc; reflexivity.
Qed.

Lemma valid_const z v : ok_ (obj [("const", jz z)]) v = jeq v (jz z).
Proof. kwc. apply andb_true_r. Qed.

Definition int_entries (i : ity) : list (string * json) :=
  [("type", JStr "integer"); ("format", JStr (int_format i))] ++ int_bounds i.

Lemma valid_nonzero i v : ok_ (nonzero_schema i) v =
  match v with
  | JNum n => num_integral n && e_fmt E (int_format i) v && above (if is_signed i then lower i else Some 1%Z) n
              && below (upper i) n && (negb (is_signed i) || negb (num_eqb n (NInt 0)))
  | _ => false
  end.
Proof.
  unfold nonzero_schema. destruct (is_signed i) eqn:S.
  - unfold insert, int_schema, obj. cbn [ensure_obj]. rewrite valid_set by not_ctx'.
    assert (HN : mget "not" (mk (int_entries i)) = None).
    { rewrite mget_mk_NoDup by (destruct i; no_dup). destruct i; reflexivity. }
    rewrite (valid_lookup E (mdel "not" (mk (int_entries i))) (mk (int_entries i))).
    2:{ intros k. rewrite mget_mdel. destruct (String.eqb_spec k "not") as [->|]; [now rewrite HN|reflexivity]. }
    change (JObj (mk (int_entries i))) with (int_schema i). rewrite valid_int.
    unfold kw. cbn [String.eqb Ascii.eqb Bool.eqb existsb assertion_names orb].
    change (JObj (mk [("const", jz 0)])) with (obj [("const", jz 0)]). rewrite valid_const.
    destruct v; cbn [negb andb orb]; rewrite ?andb_false_r; try reflexivity. cbn [jeq jz].
    rewrite andb_comm. reflexivity.
  - unfold insert, int_schema, obj. cbn [ensure_obj]. rewrite valid_set by not_ctx'.
    rewrite (valid_lookup E (mdel "minimum" (mk (int_entries i)))
      (mk ([("type", JStr "integer"); ("format", JStr (int_format i))]
           ++ match upper i with Some z => [("maximum", jz z)] | None => [] end))).
    2:{ intros k. rewrite mget_mdel, !mget_mk_NoDup by (destruct i; no_dup).
        destruct i; try discriminate; cbn [int_entries app int_bounds mget upper];
        destruct (String.eqb_spec k "minimum") as [->|]; try reflexivity;
        destruct (String.eqb_spec k "minimum"); congruence. }
    unfold kw. cbn [String.eqb Ascii.eqb Bool.eqb existsb assertion_names orb]. rewrite valid_mk by (destruct i; no_dup).
    destruct i; try discriminate; cbn [forallb fst snd app upper]; unfold kw;
      cbn [String.eqb Ascii.eqb Bool.eqb existsb assertion_names orb]; rewrite ?chk_type_str;
      destruct v; rewrite ?andb_false_r; try reflexivity;
      unfold assertion, jz, above, below, is_signed; cbn [type_ok String.eqb Ascii.eqb Bool.eqb andb orb negb];
      rewrite ?andb_true_r; destruct (num_integral n); cbn [andb]; rewrite ?andb_false_r; try reflexivity;
      destruct (e_fmt E _ _); cbn [andb]; rewrite ?andb_false_r, ?andb_true_r; reflexivity.
Qed.

Lemma valid_set_schema s v : ok_ (set_schema s) v =
  match v with JArr l => all_distinct l && forallb (ok_ s) l | _ => false end.
Proof.
  unfold set_schema. kwc. rewrite chk_type_str. destruct v; try reflexivity. unfold assertion.
  cbn [type_ok String.eqb Ascii.eqb Bool.eqb andb mget skipn]. now rewrite andb_true_r.
Qed.

Lemma valid_empty_array v : ok_ empty_array_schema v = match v with JArr [] => true | _ => false end.
Proof.
  unfold empty_array_schema. kwc. rewrite chk_type_str. destruct v as [| | | |l|]; try reflexivity. unfold assertion, jz.
  cbn [type_ok String.eqb Ascii.eqb Bool.eqb andb]. rewrite num_leb_int, andb_true_r.
  destruct l; [reflexivity|]. cbn [List.length]. apply Z.leb_gt. lia.
Qed.

Lemma valid_array n s v : ok_ (array_schema n s) v =
  match v with JArr l => Nat.eqb (List.length l) n && forallb (ok_ s) l | _ => false end.
Proof.
  unfold array_schema. kwc. rewrite chk_type_str. destruct v as [| | | |l|]; try reflexivity. unfold assertion, jz.
  cbn [type_ok String.eqb Ascii.eqb Bool.eqb andb mget skipn]. rewrite !num_leb_int, andb_true_r, andb_comm.
  f_equal. apply eq_true_iff_eq. rewrite andb_true_iff, !Z.leb_le, Nat.eqb_eq. lia.
Qed.

Lemma valid_array_vec n s v : ok_ (array_vec_schema n s) v =
  match v with JArr l => (List.length l <=? n)%nat && forallb (ok_ s) l | _ => false end.
Proof.
  unfold array_vec_schema. kwc. rewrite chk_type_str. destruct v as [| | | |l|]; try reflexivity. unfold assertion, jz.
  cbn [type_ok String.eqb Ascii.eqb Bool.eqb andb mget skipn]. rewrite !num_leb_int, andb_true_r, andb_comm.
  f_equal. apply eq_true_iff_eq. rewrite Z.leb_le, Nat.leb_le. lia.
Qed.

Lemma valid_bytes1 c s v : ok_ (bytes1_schema c s) v =
  match v with JArr l => forallb (ok_ s) l | JStr _ => match c with Deserialize => true | Serialize => false end | _ => false end.
Proof.
  unfold bytes1_schema. destruct c; kwc; unfold chk_type; destruct v as [| | | |l|]; cbn [existsb type_ok String.eqb Ascii.eqb Bool.eqb orb andb mget skipn];
    try reflexivity; now rewrite andb_true_r.
Qed.

Definition time_nanos : json := obj [("type", JStr "integer"); ("minimum", jz 0); ("exclusiveMaximum", jz 1000000000)].
Lemma time_delta_tuple : time_delta_schema = tuple_schema [formatted "integer" "int64"; time_nanos].
Proof. reflexivity. Qed.
Lemma num_ltb_int a b : num_ltb (NInt a) (NInt b) = Z.ltb a b.
Proof.
  unfold num_ltb, num_cmp. cbn [num_me]. rewrite Z.min_id, Z.sub_diag. cbn [Z.pow]. rewrite !Z.mul_1_r.
  unfold Z.ltb. now destruct (a ?= b)%Z.
Qed.
Lemma valid_time_nanos v : ok_ time_nanos v =
  match v with JNum n => num_integral n && num_leb (NInt 0) n && num_ltb n (NInt 1000000000) | _ => false end.
Proof.
  unfold time_nanos. kwc. rewrite chk_type_str. destruct v; try reflexivity. unfold assertion, jz.
  cbn [type_ok String.eqb Ascii.eqb Bool.eqb andb]. now rewrite andb_true_r, andb_assoc.
Qed.

Lemma valid_text c k v : ok_ (text_schema c k) v =
  match k, v with
  | Weekday, JStr s => existsb (String.eqb s) weekdays
  | SemVer, JStr s => e_rx E semver_pattern s
  | Decimal, JStr s => e_rx E (decimal_pattern c) s
  | Decimal, JNum _ => match c with Deserialize => true | Serialize => false end
  | _, JStr s => e_fmt E (text_format k) v
  | _, _ => false
  end.
Proof.
  destruct k; cbn [text_schema]; try (rewrite valid_formatted; destruct v; reflexivity).
  - kwc. rewrite chk_type_str. destruct v; try reflexivity. rewrite andb_true_r. cbn [type_ok String.eqb Ascii.eqb Bool.eqb andb chk_enum].
    unfold weekdays. cbn [map existsb]. reflexivity.
  - kwc. rewrite chk_type_str. destruct v; try reflexivity. unfold assertion. cbn [type_ok String.eqb Ascii.eqb Bool.eqb andb]. now rewrite andb_true_r.
  - destruct c; cbn [decimal_type]; kwc; unfold chk_type; destruct v; cbn [existsb type_ok String.eqb Ascii.eqb Bool.eqb orb andb]; try reflexivity;
      unfold assertion; cbn [String.eqb Ascii.eqb Bool.eqb andb]; rewrite ?andb_true_r; reflexivity.
Qed.

Definition pairwise (ss l : list json) : bool :=
  Nat.eqb (List.length l) (List.length ss) && forallb (fun p => ok_ (fst p) (snd p)) (combine ss l).

Lemma valid_tuple_schema ss v : ok_ (tuple_schema ss) v = match v with JArr l => pairwise ss l | _ => false end.
Proof.
  unfold tuple_schema. kwc. rewrite chk_type_str. destruct v as [| | | |l|]; try reflexivity. unfold assertion, jz, pairwise.
  cbn [type_ok String.eqb Ascii.eqb Bool.eqb andb]. rewrite !num_leb_int, andb_true_r, zip_ok_pairs, andb_comm.
  f_equal. apply eq_true_iff_eq. rewrite andb_true_iff, !Z.leb_le, Nat.eqb_eq. lia.
Qed.

Lemma valid_tuple_struct ss v : ok_ (tuple_struct_schema ss) v = match v with JArr l => pairwise ss l | _ => false end.
Proof.
  unfold tuple_struct_schema. destruct ss as [|s ss].
  - change (JObj (mset "maxItems" (jz (Z.of_nat (List.length (@nil json)))) (mk [("type", JStr "array")])))
      with empty_array_schema. rewrite valid_empty_array. destruct v as [| | | |l|]; try reflexivity. now destruct l.
  - set (ss' := s :: ss). set (len := jz (Z.of_nat (List.length ss'))).
    rewrite (valid_lookup E _ (tuple_map ss')).
    + rewrite valid_tuple. reflexivity.
    + intros k. unfold tuple_map. rewrite !mget_mset, !mget_mk_NoDup by no_dup. cbn [mget].
      fold len. destruct (String.eqb_spec k "maxItems") as [->|]; [reflexivity|].
      destruct (String.eqb_spec k "minItems") as [->|]; [reflexivity|].
      destruct (String.eqb_spec k "prefixItems") as [->|]; [reflexivity|].
      destruct (String.eqb k "type"); reflexivity.
Qed.

Lemma valid_oneOf l v : ok_ (obj [("oneOf", JArr l)]) v = Nat.eqb (List.length (filter (fun s => ok_ s v) l)) 1.
Proof.
  kwc. unfold chk_one, count_ok. cbn [arr_of sub_of s_arr]. rewrite andb_true_r. f_equal.
  induction l as [|s l IH]; [reflexivity|]. cbn [map filter].
  change (ok (eval D2020 E s v)) with (ok_ s v). destruct (ok_ s v); cbn [List.length]; now rewrite IH.
Qed.

Lemma valid_props_required ps extra v : NoDup (map fst extra) -> 
  (forall k, In k (map fst extra) -> k <> "type" /\ k <> "properties" /\ k <> "required") ->
  (forall k, In k (map fst extra) -> ~ In k kws) ->
  ok_ (obj ([("type", JStr "object"); ("properties", obj ps);
             ("required", JArr (map (fun p => JStr (fst p)) ps))] ++ extra)) v
  = match v with
    | JObj o => forallb (fun p => mhas (fst p) o) ps && props_ok E (mk ps) (JObj o)
    | _ => false
    end.
Proof.
  intros ND HX HK. unfold obj. rewrite valid_mk.
  2:{ cbn [map fst app]. constructor; [|constructor; [|constructor; [|exact ND]]].
      - intros [H|[H|H]]; try discriminate. now apply HX in H.
      - intros [H|H]; try discriminate. now apply HX in H.
      - intros H. now apply HX in H. }
  rewrite forallb_app.
  assert (HE : forall m, forallb (fun kv => kw E m (fst kv) (snd kv) v) extra = true).
  { intros m. apply forallb_forall. intros [k x] Hin. apply kw_other, HK, in_map_iff. now exists (k, x). }
  rewrite HE, andb_true_r. cbn [forallb fst snd]. unfold kw.
  cbn [String.eqb Ascii.eqb Bool.eqb existsb assertion_names orb]. rewrite chk_type_str. destruct v; try reflexivity.
  rewrite chk_props_ok. unfold assertion. cbn [type_ok String.eqb Ascii.eqb Bool.eqb andb]. rewrite andb_true_r, andb_comm.
  f_equal. induction ps as [|p ps IH]; [reflexivity|]. cbn [map forallb]. now rewrite IH.
Qed.

Lemma valid_required_props ps v : ok_ (required_props ps) v
  = match v with
    | JObj o => forallb (fun p => mhas (fst p) o) ps && props_ok E (mk ps) (JObj o)
    | _ => false
    end.
Proof. exact (valid_props_required ps [] v (NoDup_nil _) (fun k H => False_ind _ H) (fun k H => False_ind _ H)). Qed.

(** ** Maps *)
Definition all_patterns (k : key_kinds) : list string :=
  k_patterns k ++ match k_ints k with O => [] | 1 => [digits_pattern] | _ => [signed_pattern] end.
Definition key_allowed (k : key_kinds) (n : string) : bool :=
  k_other k || existsb (String.eqb n) (k_props k) || existsb (fun p => e_rx E p n) (all_patterns k).

Lemma mget_mappend_const (l : list string) (x : json) m n :
  mget n (mappend m (map (fun p => (p, x)) l)) = if existsb (String.eqb n) l then Some x else mget n m.
Proof.
  revert m. induction l as [|a l IH]; intros m; [reflexivity|]. cbn [map existsb].
  change (mappend m ((a, x) :: map (fun p => (p, x)) l)) with (mappend (mset a x m) (map (fun p => (p, x)) l)).
  rewrite IH, mget_mset. destruct (String.eqb n a), (existsb (String.eqb n) l); reflexivity.
Qed.

Lemma mget_const (l : list string) (x : json) n :
  mget n (mk (map (fun p => (p, x)) l)) = if existsb (String.eqb n) l then Some x else None.
Proof. exact (mget_mappend_const l x [] n). Qed.

Lemma existsb_const (f : string -> bool) (l : list string) (x : json) :
  existsb (fun pf => f (fst pf)) (mk (map (fun p => (p, x)) l)) = existsb f l.
Proof.
  apply eq_true_iff_eq. rewrite !existsb_exists. split.
  - intros ([a y] & Hin & H). exists a. split; [|exact H].
    apply (NoDup_mget _ _ _ (sorted_NoDup _ (sorted_mk _))) in Hin. rewrite mget_const in Hin.
    destruct (existsb (String.eqb a) l) eqn:EE; [|discriminate]. apply existsb_exists in EE as (b & Hb & Eb).
    apply String.eqb_eq in Eb. now subst.
  - intros (a & Hin & H). exists (a, x). split; [|exact H]. apply mget_In. rewrite mget_const.
    replace (existsb (String.eqb a) l) with true; [reflexivity|]. symmetry. apply existsb_exists.
    exists a. now rewrite String.eqb_refl.
Qed.

Lemma const_values (l : list string) (x : json) p y : In (p, y) (mk (map (fun p => (p, x)) l)) -> y = x.
Proof.
  intros H. apply (NoDup_mget _ _ _ (sorted_NoDup _ (sorted_mk _))) in H. rewrite mget_const in H.
  destruct (existsb _ l); congruence.
Qed.

Lemma in_patterns_den E' ps n : in_patterns E' (Some (sub_of D2020 E (JObj ps))) n = existsb (fun pf => e_rx E' (fst pf) n) ps.
Proof. cbn. induction ps as [|[p x] ps IH]; [reflexivity|]. cbn. now rewrite IH. Qed.

(** The three keywords of a map schema *)
Definition map_keywords (k : key_kinds) (vs : json) : map_t :=
  mk ([("type", JStr "object"); ("additionalProperties", if k_other k then vs else JBool false)]
      ++ match all_patterns k with [] => [] | ps => [("patternProperties", obj (map (fun p => (p, vs)) ps))] end
      ++ match k_props k with [] => [] | ps => [("properties", obj (map (fun p => (p, vs)) ps))] end).

Lemma map_of_kinds_lookup k vs v : ok_ (map_of_kinds k vs) v = ok_ (JObj (map_keywords k vs)) v.
Proof.
  unfold map_of_kinds, map_keywords. fold (all_patterns k). apply valid_lookup. intros n.
  destruct (all_patterns k) as [|p ps]; destruct (k_props k) as [|q qs]; rewrite ?mget_mset, !mget_mk_NoDup by no_dup;
    cbn [mget app];
    destruct (String.eqb_spec n "type") as [->|]; try reflexivity;
    destruct (String.eqb_spec n "additionalProperties") as [->|]; try reflexivity;
    destruct (String.eqb_spec n "patternProperties") as [->|]; try reflexivity.
Qed.

Lemma valid_map k vs v : ok_ (map_of_kinds k vs) v =
  match v with
  | JObj o => forallb (fun kx => key_allowed k (fst kx) && ok_ vs (snd kx)) o
  | _ => false
  end.
Proof.
  rewrite map_of_kinds_lookup. unfold map_keywords.
  assert (ND : NoDup (map fst ([("type", JStr "object"); ("additionalProperties", if k_other k then vs else JBool false)]
      ++ match all_patterns k with [] => [] | ps => [("patternProperties", obj (map (fun p => (p, vs)) ps))] end
      ++ match k_props k with [] => [] | ps => [("properties", obj (map (fun p => (p, vs)) ps))] end))).
  { destruct (all_patterns k), (k_props k); no_dup. }
  rewrite valid_mk by exact ND. set (m := _ ++ _) at 1.
  assert (HT : forall x, kw E m "type" (JStr "object") x = type_ok "object" x) by (intros; apply chk_type_str).
  assert (HP : forall x ps, kw E m "properties" (obj ps) x = props_ok E (mk ps) x) by (intros; apply chk_props_ok).
  assert (HPP : forall x ps, kw E m "patternProperties" (obj ps) x
    = match x with JObj o => forallb (fun kx => forallb (fun pf => negb (e_rx E (fst pf) (fst kx)) || ok_ (snd pf) (snd kx)) (mk ps)) o
      | _ => true end) by (intros; apply chk_patterns_forall).
  assert (HA : forall x a, kw E m "additionalProperties" a x
    = match x with JObj o => forallb (fun kx => existsb (String.eqb (fst kx)) (k_props k)
                               || existsb (fun p => e_rx E p (fst kx)) (all_patterns k) || ok_ a (snd kx)) o
      | _ => true end).
  { intros x a. unfold kw. cbn [String.eqb Ascii.eqb Bool.eqb existsb assertion_names orb].
    destruct x; try reflexivity. cbn [chk_additional]. apply forallb_eq. intros [n y] _. cbn [fst snd].
    assert (H1 : in_props (subk E m "properties") n = existsb (String.eqb n) (k_props k)).
    { unfold subk, m. destruct (all_patterns k), (k_props k) as [|q qs]; cbn [mget app String.eqb Ascii.eqb Bool.eqb option_map];
        try reflexivity; unfold obj; rewrite in_props_den; unfold mhas; rewrite mget_const;
        now destruct (existsb _ _). }
    assert (H2 : in_patterns E (subk E m "patternProperties") n = existsb (fun p => e_rx E p n) (all_patterns k)).
    { unfold subk, m. destruct (all_patterns k) as [|p ps], (k_props k) as [|q qs]; cbn [mget app String.eqb Ascii.eqb Bool.eqb option_map];
        try reflexivity; unfold obj; rewrite in_patterns_den; apply (existsb_const (fun p => e_rx E p n)). }
    rewrite H1, H2. reflexivity. }
  clearbody m. rewrite !forallb_app. cbn [forallb fst snd]. rewrite HT, HA.
  destruct v as [| | | | |o]; try (destruct (type_ok "object" _) eqn:ET; [discriminate|reflexivity]).
  cbn [type_ok]. cbn [String.eqb Ascii.eqb Bool.eqb andb]. rewrite andb_true_r.
  assert (H3 : forallb (fun kv => kw E m (fst kv) (snd kv) (JObj o))
     match all_patterns k with [] => [] | ps => [("patternProperties", obj (map (fun p => (p, vs)) ps))] end
     = forallb (fun kx => negb (existsb (fun p => e_rx E p (fst kx)) (all_patterns k)) || ok_ vs (snd kx)) o).
  { destruct (all_patterns k) as [|p ps] eqn:EP; cbn [forallb fst snd].
    - symmetry. apply forallb_forall. reflexivity.
    - rewrite HPP, andb_true_r. rewrite <- EP. apply forallb_eq. intros [n y] _. cbn [fst snd].
      rewrite <- (existsb_const (fun p => e_rx E p n) (all_patterns k) vs).
      pose proof (const_values (all_patterns k) vs) as HC. revert HC.
      induction (mk (map (fun p => (p, vs)) (all_patterns k))) as [|[a z] l IH]; intros HC; [reflexivity|].
      cbn [forallb existsb fst snd]. rewrite IH by (intros; eapply HC; right; eauto).
      rewrite (HC a z (or_introl eq_refl)). destruct (e_rx E a n), (ok_ vs y), (existsb _ l); reflexivity. }
  assert (H4 : forallb (fun kv => kw E m (fst kv) (snd kv) (JObj o))
     match k_props k with [] => [] | ps => [("properties", obj (map (fun p => (p, vs)) ps))] end
     = forallb (fun kx => negb (existsb (String.eqb (fst kx)) (k_props k)) || ok_ vs (snd kx)) o).
  { destruct (k_props k) as [|p ps] eqn:EP; cbn [forallb fst snd].
    - symmetry. apply forallb_forall. reflexivity.
    - rewrite HP, andb_true_r. rewrite <- EP. cbn [props_ok]. apply forallb_eq. intros [n y] _. cbn [fst snd].
      rewrite mget_const. now destruct (existsb _ _). }
  rewrite H3, H4. clear. induction o as [|[n y] o IH]; [reflexivity|]. cbn [forallb fst snd]. rewrite <- IH.
  unfold key_allowed. cbn [fst snd].
  set (A := forallb _ o). set (B := forallb _ o). set (D := forallb _ o).
  destruct (existsb (String.eqb n) (k_props k)), (existsb (fun p => e_rx E p n) (all_patterns k)), (k_other k);
    rewrite ?valid_bool; destruct (ok_ vs y), A, B, D; reflexivity.
Qed.

End Shape.
