(** Every implementation of a standard type: given sound parts, a sound schema. *)
From Coq Require Import String Ascii List ZArith Bool Lia.
From Verif Require Import Json JsonFacts Utf8 SchemaApi Transform Validate ValidateFacts ValidateKw Pointer Private PrivateProps
  PrivateNull PrivateTag ShapeFacts PrivateFlatten PrivateForFlatten Generate SerValue SerValueProofs Types TypesShape
  Serde SerdeFacts Derivation Properties_Types SoundBase SoundStruct SoundTypes.
Import ListNotations.
Open Scope string_scope.
Open Scope list_scope.

Section StdSound.
Context {St : Type}.
Variable items : nat -> item rval.
Variable text_ok : checks.
Variable E : env.
Hypothesis HFm : formats text_ok E.
Hypothesis HDp : decimal_patterns E.
Variable tok : string.
Hypothesis tok_fresh : ~ In tok used.
Notation ok_ := (valid D2020 E).
Notation ser_ := (ser items text_ok true).
Notation safe := (safe E tok).
Notation wf_meta := (wf_meta tok).
Notation st := (st items text_ok E tok).
Notation parts := (parts items text_ok).
Notation fits := (fits E).
Variable S : settings St.
Variable seen : map_t -> Prop.
Hypothesis seen_defs : forall defs r n d v, seen defs ->
  strip_prefix (String "#" (definitions_path_stripped (s_path S) ++ "/")%string) r = Some n ->
  mget n defs = Some (JObj d) -> ok_ (new_ref r) v = true -> ok_ (JObj d) v = true.
Notation sound := (sound items text_ok E).
Notation A := (A items text_ok E tok).
Notation P := (P items text_ok E tok).
Notation post := (post (St := St) S seen).
Notation prog := (prog rty St).
Notation step n t p := (post (A n) (P n) (P (Datatypes.S n) t) p).

Ltac no_dup := cbn [map fst]; repeat (constructor; [intros HH; cbn in HH; repeat (destruct HH as [HH|HH]; [discriminate|]); exact HH|]); constructor.
Ltac safe_lit := apply safe_obj; [exact (fm_null _ _ HFm)|exact tok_fresh|reflexivity|reflexivity|reflexivity].

Lemma seq_step n t s : sound n t s -> sound (Datatypes.S n) (TSeq t) (seq_schema s).
Proof.
  intros HA v sv j HL HS HJ. destruct v; cbn in HS; try discriminate.
  destruct (omap _ l) as [vs|] eqn:EO; [|discriminate]. injection HS as <-. cbn in HJ.
  destruct (omap json_of vs) as [js|] eqn:EJ; [|discriminate]. injection HJ as <-.
  unfold seq_schema. rewrite valid_items. eapply seq_json; eauto. intros x Hx. apply size_seq in Hx. lia.
Qed.

Lemma set_step n t s : sound n t s -> sound (Datatypes.S n) (TSet t) (set_schema s).
Proof.
  intros HA v sv j HL HS HJ. destruct v; cbn in HS; try discriminate.
  destruct (omap _ l) as [vs|] eqn:EO; [|discriminate]. unfold check in HS. cbn [negb orb] in HS.
  destruct (distinct_json vs) eqn:ED; [|discriminate]. injection HS as <-. cbn in HJ. unfold distinct_json in ED.
  destruct (omap json_of vs) as [js|] eqn:EJ; [|discriminate]. injection HJ as <-.
  rewrite valid_set_schema, ED. eapply seq_json; eauto. intros x Hx. apply size_seq in Hx. lia.
Qed.

Lemma array_step n k t s : sound n t s -> sound (Datatypes.S n) (TArray k t) (array_schema k s).
Proof.
  intros HA v sv j HL HS HJ. destruct v; cbn in HS; try discriminate.
  destruct (Nat.eqb_spec (List.length l) k) as [HK|]; [|discriminate].
  destruct (omap _ l) as [vs|] eqn:EO; [|discriminate]. injection HS as <-. cbn in HJ.
  destruct (omap json_of vs) as [js|] eqn:EJ; [|discriminate]. injection HJ as <-.
  rewrite valid_array, (list_len _ _ _ EJ), (list_len _ _ _ EO), HK, Nat.eqb_refl.
  eapply seq_json; eauto. intros x Hx. apply size_seq in Hx. lia.
Qed.

Lemma empty_array_step n t : sound n (TArray 0 t) empty_array_schema.
Proof.
  intros v sv j HL HS HJ. destruct v; cbn in HS; try discriminate. destruct l; [|discriminate].
  injection HS as <-. injection HJ as <-. now rewrite valid_empty_array.
Qed.

Lemma tuple_step n ts ss : Forall2 (A n) ts ss -> sound (Datatypes.S n) (TTuple ts) (tuple_schema ss).
Proof.
  intros HF v sv j HL HS HJ. destruct v; cbn in HS; try discriminate. fold (parts l) in HS.
  destruct (ser_tuple ts (parts l)) as [vs|] eqn:ET; [|discriminate]. injection HS as <-. cbn in HJ.
  destruct (omap json_of vs) as [js|] eqn:EJ; [|discriminate]. injection HJ as <-.
  rewrite valid_tuple_schema. eapply tuple_json; eauto. intros x Hx. apply size_seq in Hx. lia.
Qed.

Lemma one_of_first s l v : ok_ s v = true -> (forall x, In x l -> ok_ x v = false) -> ok_ (obj [("oneOf", JArr (s :: l))]) v = true.
Proof.
  intros H HN. rewrite valid_oneOf. cbn [filter]. rewrite H. cbn [List.length].
  assert (HF : filter (fun x => ok_ x v) l = []).
  { induction l as [|x l IH]; [reflexivity|]. cbn [filter]. rewrite (HN x) by now left. apply IH. intros y Hy. apply HN. now right. }
  now rewrite HF.
Qed.

Lemma one_of_skip s l v : ok_ s v = false -> ok_ (obj [("oneOf", JArr (s :: l))]) v = ok_ (obj [("oneOf", JArr l)]) v.
Proof. intros H. rewrite !valid_oneOf. cbn [filter]. now rewrite H. Qed.

Lemma one_prop k k' s j : k <> k' -> ok_ (required_props [(k', s)]) (JObj [(k, j)]) = false.
Proof.
  intros H. apply (required_props_reject E [(k', s)] [(k, j)] k' s); [now left|]. cbn. destruct (String.eqb_spec k' k); congruence.
Qed.

Lemma result_step n t e s s' : sound n t s -> sound n e s' -> sound (Datatypes.S n) (TResult t e) (result_schema s s').
Proof.
  intros H1 H2 v sv j HL HS HJ. destruct v as [| | | | | | | | | | |i l]; cbn in HS; try discriminate.
  destruct i as [|[|]]; try discriminate; destruct l as [|x [|]]; try discriminate;
    assert (HX : rsize x < n) by (pose proof (size_variant 0 [x] x (or_introl eq_refl)); cbn in *; lia);
    destruct (ser_ x _) as [y|] eqn:EX; try discriminate; injection HS as <-; cbn [json_of] in HJ;
    destruct (json_of y) as [z|] eqn:EZ; try discriminate; injection HJ as <-; unfold result_schema.
  - apply one_of_first; [apply required_props_one; eauto|]. intros w [<-|[]]. now apply one_prop.
  - rewrite one_of_skip by now apply one_prop. apply one_of_first; [apply required_props_one; eauto|]. intros w [].
Qed.

Lemma fits_pairs ps es : NoDup (map fst ps) -> Forall2 (fun p e => fst p = fst e /\ ok_ (snd p) (snd e) = true) ps es ->
  fits (mk ps) (map (fun p => JStr (fst p)) ps) es.
Proof.
  intros ND HF. assert (HK : map fst es = map fst ps).
  { clear ND. induction HF as [|p e ps es [H _] HF IH]; [reflexivity|]. cbn. congruence. }
  split.
  - now rewrite HK.
  - intros k Hk. rewrite mget_mk_NoDup by exact ND. rewrite HK in Hk. now apply mhas_In.
  - intros k s x. rewrite mget_mk_NoDup by exact ND. clear -HF. induction HF as [|[k1 s1] [k2 x2] ps es [H1 H2] HF IH]; [discriminate|].
    cbn in *. subst k2. destruct (String.eqb k k1); [|exact IH]. intros [= <-] [= <-]. exact H2.
  - intros k Hk. apply mhas_In. rewrite HK. apply in_map_iff in Hk as (p & [= <-] & Hp). now apply in_map.
Qed.

Lemma external_shape name c : exists m, new_externally_tagged_enum_variant name c = JObj m /\ object_shape m
  /\ mget "additionalProperties" m = Some (JBool false) /\ props_of m = mk [(name, c)] /\ required_of m = [JStr name]
  /\ mget "type" m = Some (JStr "object").
Proof.
  eexists. split; [reflexivity|]. split; [|repeat split; reflexivity].
  split; [|split; [|split]]; try (right; reflexivity); try (right; eexists; reflexivity).
  intros k Hk HN. apply mk_keys in HN. cbn in HN. repeat (destruct HN as [<-|HN]; [in_names|]). destruct HN.
Qed.

Lemma external_accepts name c j : ok_ c j = true -> ok_ (new_externally_tagged_enum_variant name c) (JObj [(name, j)]) = true.
Proof.
  intros H. destruct (external_shape name c) as (m & -> & HS & HA & HP & HR & _).
  change (JObj [(name, j)]) with (JObj (mk [(name, j)])). apply fits_valid; auto. rewrite HP, HR.
  apply (fits_pairs [(name, c)] [(name, j)]); [repeat constructor; intros []|repeat constructor; auto].
Qed.

Lemma external_other name c name' j : name' <> name -> ok_ (new_externally_tagged_enum_variant name c) (JObj [(name', j)]) = false.
Proof.
  intros HN. destruct (external_shape name c) as (m & -> & HS & HA & HP & HR & HT). apply Bool.not_true_iff_false. intros HV.
  rewrite valid_shape in HV by exact HS. rewrite HR in HV. apply andb_prop in HV as [HV _]. apply andb_prop in HV as [_ HV].
  cbn in HV. unfold mhas in HV. cbn [mget] in HV. destruct (String.eqb_spec name name'); [congruence|discriminate].
Qed.

Lemma safe_external name c : safe (new_externally_tagged_enum_variant name c).
Proof. unfold new_externally_tagged_enum_variant. apply safe_obj; [apply HFm|exact tok_fresh|reflexivity|reflexivity|reflexivity]. Qed.

Lemma either_external k s : either_side k s = new_externally_tagged_enum_variant k s.
Proof. reflexivity. Qed.
Lemma either_step n a b s s' : sound n a s -> sound n b s' -> sound (Datatypes.S n) (TEither a b) (either_schema s s').
Proof.
  intros H1 H2 v sv j HL HS HJ. destruct v as [| | | | | | | | | | |i l]; cbn in HS; try discriminate.
  destruct i as [|[|]]; try discriminate; destruct l as [|x [|]]; try discriminate;
    assert (HX : rsize x < n) by (pose proof (size_variant 0 [x] x (or_introl eq_refl)); cbn in *; lia);
    destruct (ser_ x _) as [y|] eqn:EX; try discriminate; injection HS as <-; cbn [json_of] in HJ;
    destruct (json_of y) as [z|] eqn:EZ; try discriminate; injection HJ as <-; unfold either_schema; rewrite !either_external.
  - apply one_of_first; [apply external_accepts; eauto|]. intros w [<-|[]]. now apply external_other.
  - rewrite one_of_skip by now apply external_other. apply one_of_first; [apply external_accepts; eauto|]. intros w [].
Qed.

Lemma array_vec_step n k t s : sound n t s -> sound (Datatypes.S n) (TArrayVec k t) (array_vec_schema k s).
Proof.
  intros HA v sv j HL HS HJ. destruct v; cbn in HS; try discriminate.
  destruct (List.length l <=? k)%nat eqn:HK; [|discriminate].
  destruct (omap _ l) as [vs|] eqn:EO; [|discriminate]. injection HS as <-. cbn in HJ.
  destruct (omap json_of vs) as [js|] eqn:EJ; [|discriminate]. injection HJ as <-.
  rewrite valid_array_vec, (list_len _ _ _ EJ), (list_len _ _ _ EO), HK.
  eapply seq_json; eauto. intros x Hx. apply size_seq in Hx. lia.
Qed.

Lemma bytes_step n c s : sound n (TInt U8) s -> sound (Datatypes.S n) TBytes (bytes1_schema c s).
Proof.
  intros HA v sv j HL HS HJ. destruct v as [| | | | | | |l| | | |]; cbn in HS; try discriminate.
  destruct (omap _ l) as [zs|] eqn:EO; [|discriminate]. injection HS as <-. injection HJ as <-. rewrite valid_bytes1.
  apply forallb_forall. intros x Hx. apply in_map_iff in Hx as (z & <- & Hz).
  assert (HB : in_range U8 z = true /\ In (RInt z) l).
  { apply omap_F2 in EO. clear -EO Hz. induction EO as [|a b l zs H EO IH]; [destruct Hz|]. destruct Hz as [<-|Hz]; [|split; [|right]; now apply IH].
    destruct a; try discriminate. destruct (_ && _) eqn:EB; [|discriminate]. injection H as ->. split; [exact EB|now left]. }
  destruct HB as [HB HIn]. apply size_seq in HIn. apply (HA (RInt z) (VInt z)); auto; [lia|].
  change (check (in_range U8 z) (Some (VInt z)) = Some (VInt z)). now rewrite HB.
Qed.

Lemma time_delta_step n : sound n TTimeDelta time_delta_schema.
Proof.
  intros v sv j _ HS HJ. destruct v as [| | | | | | |l| | | |]; cbn in HS; try discriminate.
  destruct l as [|[] [|[] [|]]]; try discriminate. unfold check in HS. destruct (time_delta_ok z z0) eqn:EB; [|discriminate]. injection HS as <-.
  unfold time_delta_ok in EB. apply andb_prop in EB as [EB B1]. apply andb_prop in EB as [B2 B3]. injection HJ as <-.
  assert (B0 : in_range I64 z = true).
  { apply Z.leb_le in B1, B2. apply Z.ltb_lt in B3. change (((-9223372036854775808 <=? z) && (z <=? 9223372036854775807))%Z = true).
    rewrite andb_true_iff, !Z.leb_le. lia. }
  rewrite time_delta_tuple, valid_tuple_schema. unfold pairwise. cbn [List.length combine forallb fst snd Nat.eqb].
  rewrite valid_formatted, valid_time_nanos, num_leb_int, num_ltb_int, B2, B3. cbn [type_ok String.eqb Ascii.eqb Bool.eqb num_integral andb].
  change "int64" with (int_format I64). now rewrite (fm_int _ _ HFm I64 z B0).
Qed.

Lemma text_step n c k : sound n (TText k) (text_schema c k).
Proof.
  intros v sv j _ HS HJ. rewrite valid_text. pose proof (fm_text _ _ HFm k) as HF.
  destruct v; try (destruct k; discriminate).
  assert (HT : exists b : bool, b = true /\ sv = VStr s /\ (k <> Weekday -> b = text_ok k s) /\ (k = Weekday -> b = existsb (String.eqb s) weekdays)).
  { destruct k; cbn [ser] in HS; unfold check in HS;
      match type of HS with (if ?c then _ else _) = _ => exists c; destruct c; [|discriminate]; injection HS as <- end; repeat split; congruence. }
  destruct HT as (b & HB & -> & HT & HW). injection HJ as <-. subst b.
  destruct k; try (apply HF; symmetry; apply HT; discriminate). now rewrite <- HW.
Qed.
Lemma safe_text c k : safe (text_schema c k).
Proof.
  destruct k; try (cbn [text_schema]; unfold formatted; safe_lit).
  cbn [text_schema]. destruct c; [|safe_lit]. apply safe_plain; [exact (fm_null _ _ HFm)|reflexivity|reflexivity|reflexivity|reflexivity|now apply fresh_mk].
Qed.

Lemma os_string_step n s s' : sound n (TSeq (TInt U8)) s -> sound n (TSeq (TInt U16)) s' -> sound (Datatypes.S n) TOsString (os_string_schema s s').
Proof.
  intros H1 H2 v sv j HL HS HJ. destruct v as [| | | | | | | | | | |i l]; cbn in HS; try discriminate.
  destruct i as [|[|]]; try discriminate; destruct l as [|x [|]]; try discriminate;
    assert (HX : rsize x < n) by (pose proof (size_variant 0 [x] x (or_introl eq_refl)); cbn in *; lia).
  - change (option_map (VNewtypeVariant "Unix") (ser_ x (TSeq (TInt U8))) = Some sv) in HS.
    destruct (ser_ x (TSeq (TInt U8))) as [y|] eqn:EX; [|discriminate]. injection HS as <-. cbn [json_of] in HJ.
    destruct (json_of y) as [z|] eqn:EZ; [|discriminate]. injection HJ as <-. unfold os_string_schema.
    apply one_of_first; [apply required_props_one; eauto|]. intros w [<-|[]]. now apply one_prop.
  - change (option_map (VNewtypeVariant "Windows") (ser_ x (TSeq (TInt U16))) = Some sv) in HS.
    destruct (ser_ x (TSeq (TInt U16))) as [y|] eqn:EX; [|discriminate]. injection HS as <-. cbn [json_of] in HJ.
    destruct (json_of y) as [z|] eqn:EZ; [|discriminate]. injection HJ as <-. unfold os_string_schema.
    rewrite one_of_skip by now apply one_prop. apply one_of_first; [apply required_props_one; eauto|]. intros w [].
Qed.

Lemma valid_string_const c v : ok_ (obj [("type", JStr "string"); ("const", JStr c)]) v = match v with JStr s => String.eqb s c | _ => false end.
Proof.
  unfold obj. rewrite valid_mk by no_dup. cbn [forallb fst snd]. unfold kw.
  cbn [String.eqb Ascii.eqb Bool.eqb existsb assertion_names orb]. rewrite chk_type_str. destruct v; try reflexivity.
  unfold chk_const. rewrite andb_true_r. cbn [type_ok String.eqb Ascii.eqb Bool.eqb andb].
  apply eq_true_iff_eq. rewrite jeq_str, String.eqb_eq. split; congruence.
Qed.

Lemma bound_step n t s s' : sound n t s -> sound n t s' -> sound (Datatypes.S n) (TBound t) (bound_schema s s').
Proof.
  intros H1 H2 v sv j HL HS HJ. destruct v as [| | | | | | | | | | |i l]; cbn in HS; try discriminate.
  destruct i as [|[|[|]]]; try discriminate.
  - destruct l; [|discriminate]. injection HS as <-. injection HJ as <-. unfold bound_schema.
    rewrite one_of_skip by apply required_props_string. rewrite one_of_skip by apply required_props_string.
    apply one_of_first; [now rewrite valid_string_const|]. intros w [].
  - destruct l as [|x [|]]; try discriminate.
    assert (HX : rsize x < n) by (pose proof (size_variant 0 [x] x (or_introl eq_refl)); cbn in *; lia).
    destruct (ser_ x _) as [y|] eqn:EX; try discriminate; injection HS as <-; cbn [json_of] in HJ;
    destruct (json_of y) as [z|] eqn:EZ; try discriminate; injection HJ as <-; unfold bound_schema.
    apply one_of_first; [apply required_props_one; eauto|]. intros w [<-|[<-|[]]]; [now apply one_prop|now rewrite valid_string_const].
  - destruct l as [|x [|]]; try discriminate.
    assert (HX : rsize x < n) by (pose proof (size_variant 0 [x] x (or_introl eq_refl)); cbn in *; lia).
    destruct (ser_ x _) as [y|] eqn:EX; try discriminate; injection HS as <-; cbn [json_of] in HJ;
    destruct (json_of y) as [z|] eqn:EZ; try discriminate; injection HJ as <-; unfold bound_schema.
    rewrite one_of_skip by now apply one_prop.
    apply one_of_first; [apply required_props_one; eauto|]. intros w [<-|[]]. now rewrite valid_string_const.
Qed.

Lemma two_fields a b s s' name x y z w : a <> b -> ok_ s z = true -> ok_ s' w = true -> json_of x = Some z -> json_of y = Some w ->
  forall j, json_of (VStruct name [(a, x); (b, y)]) = Some j -> ok_ (required_props [(a, s); (b, s')]) j = true.
Proof.
  intros HN H1 H2 H3 H4 j HJ. rewrite json_struct in HJ. cbn in HJ. rewrite H3, H4 in HJ. injection HJ as <-.
  change (JObj (mset b w [(a, z)])) with (JObj (mk [(a, z); (b, w)])). apply required_props_accept.
  - constructor; [|repeat constructor; intros []]. intros [H|[]]. now apply HN.
  - repeat constructor; auto.
Qed.

Lemma range_step n t s : sound n t s -> sound (Datatypes.S n) (TRange t) (range_schema s).
Proof.
  intros H1 v sv j HL HS HJ. destruct v as [| | | | | | |l| | | |]; cbn in HS; try discriminate.
  destruct l as [|x [|y [|]]]; try discriminate.
  assert (HX : rsize x < n /\ rsize y < n).
  { pose proof (size_seq [x; y] x (or_introl eq_refl)). pose proof (size_seq [x; y] y (or_intror (or_introl eq_refl))). cbn in *; lia. }
  destruct (ser_ x t) as [x'|] eqn:EX; [|discriminate]. destruct (ser_ y t) as [y'|] eqn:EY; [|discriminate]. injection HS as <-.
  pose proof HJ as HJ'. rewrite json_struct in HJ'. cbn in HJ'. destruct (json_of x') as [z|] eqn:EZ; [|discriminate].
  destruct (json_of y') as [w|] eqn:EW; [|discriminate]. unfold range_schema.
  apply (two_fields "start" "end" s s "Range" x' y' z w); auto; [discriminate|apply (H1 x x')|apply (H1 y y')]; auto; lia.
Qed.

Lemma u64_u32_step n a b name t : a <> b ->
  (forall v, ser_ v t = u64_u32 name a b v) ->
  sound n t (required_props [(a, int_schema U64); (b, int_schema U32)]).
Proof.
  intros HN HT v sv j _ HS HJ. rewrite HT in HS. unfold u64_u32 in HS.
  destruct v as [| | | | | | |l| | | |]; try discriminate. destruct l as [|[] [|[] [|]]]; try discriminate.
  - unfold check in HS. destruct (in_range U64 z && in_range U32 z0) eqn:ER; [|discriminate].
    apply andb_prop in ER as [R1 R2]. injection HS as <-.
    apply (two_fields a b _ _ name (VInt z) (VInt z0) (JNum (NInt z)) (JNum (NInt z0))); auto.
    + apply (int_sound items text_ok E HFm U64 (Datatypes.S (rsize (RInt z))) (RInt z) (VInt z)); auto.
      change (check (in_range U64 z) (Some (VInt z)) = Some (VInt z)). now rewrite R1.
    + apply (int_sound items text_ok E HFm U32 (Datatypes.S (rsize (RInt z0))) (RInt z0) (VInt z0)); auto.
      change (check (in_range U32 z0) (Some (VInt z0)) = Some (VInt z0)). now rewrite R2.
Qed.

Lemma c_string_items s l : ok_ (obj [("type", JArr [JStr "array"; JStr "string"]); ("items", s)]) (JArr l) = forallb (ok_ s) l.
Proof.
  unfold obj. rewrite valid_mk by no_dup. cbn [forallb fst snd]. unfold kw.
  cbn [String.eqb Ascii.eqb Bool.eqb existsb assertion_names orb mget skipn]. unfold chk_type. cbn. now rewrite !andb_true_r.
Qed.

Lemma c_string_step n c : sound n TCString (c_string_schema c).
Proof.
  intros v sv j _ HS HJ. destruct v as [| | | | | | |l| | | |]; cbn in HS; try discriminate.
  destruct (omap _ l) as [zs|] eqn:EO; [|discriminate]. injection HS as <-. injection HJ as <-.
  unfold c_string_schema.
  match goal with |- ok_ (obj [_; ("items", ?s)]) (JArr ?vs) = true =>
    assert (HG : forallb (ok_ s) vs = true); [|destruct c; [now rewrite c_string_items|now rewrite valid_items]] end.
  apply forallb_forall. intros x Hx. apply in_map_iff in Hx as (z & <- & Hz).
  assert (HB : (1 <= z <= 255)%Z).
  { apply omap_F2 in EO. clear -EO Hz. induction EO as [|a b l zs H EO IH]; [destruct Hz|]. destruct Hz as [<-|Hz]; [|auto].
    destruct a; try discriminate. destruct (_ && _) eqn:EB; [|discriminate]. injection H as ->. apply andb_prop in EB as [B1 B2].
    apply Z.leb_le in B1, B2. lia. }
  unfold obj. rewrite valid_mk by no_dup. cbn [forallb fst snd]. unfold kw.
  cbn [String.eqb Ascii.eqb Bool.eqb existsb assertion_names orb]. rewrite chk_type_str. unfold assertion, jz.
  cbn [type_ok String.eqb Ascii.eqb Bool.eqb andb num_integral]. rewrite !num_leb_int, !andb_true_iff, !Z.leb_le.
  repeat split; try lia; reflexivity.
Qed.

Lemma option_step n t s : safe s -> sound n t s -> sound (Datatypes.S n) (TOption t) (allow_null s).
Proof.
  intros HF HA v sv j HL HS HJ. destruct v; cbn in HS; try discriminate.
  - injection HS as <-. injection HJ as <-. eapply allow_null_accepts; eauto; apply HFm.
  - destruct (ser_ v t) as [x|] eqn:EX; [|discriminate]. injection HS as <-. cbn in HJ.
    apply allow_null_mono. apply (HA v x j); auto. cbn in HL. lia.
Qed.

Lemma sound_fwd n t s : sound n t s -> sound n (TFwd t) s.
Proof. intros H v sv j HL HS. rewrite ser_fwd in HS. eauto. Qed.
Lemma sound_weak n t s : sound n t s -> sound n (TWeak t) s.
Proof.
  intros H v sv j HL HS HJ. rewrite ser_weak in HS.
  assert (HE : exists x, ser_ v t = Some x /\ sv = VSome x).
  { destruct v; try discriminate; destruct (ser_ _ t) as [x|] eqn:EX; try discriminate; injection HS as <-; eauto. }
  destruct HE as (x & HX & ->). cbn in HJ. eauto.
Qed.

(** The step for the standard types; derived ones are treated in SoundAdt.v. *)
Lemma std_step n t :
  (forall i cs ts, unwrap t = TAdt i cs ts -> step n (TAdt i cs ts) (body items (TAdt i cs ts))) ->
  step n t (body items t).
Proof.
  assert (FN := fm_null _ _ HFm).
  induction t; intros HAdt; cbn [body post].
  - split; try discriminate; auto; [unfold type_schema; safe_lit|]. intros v sv j _ HS HJ. destruct v; cbn in HS; try discriminate.
    injection HS as <-. injection HJ as <-. now rewrite valid_type_schema.
  - apply P_other; [unfold type_schema; safe_lit| |exact I]. intros v sv j _ HS HJ. destruct v; cbn in HS; try discriminate.
    injection HS as <-. injection HJ as <-. now rewrite valid_type_schema.
  - split; try discriminate; auto; [now apply safe_null_schema|]. intros v sv j _ HS HJ. destruct v; cbn in HS; try discriminate.
    injection HS as <-. injection HJ as <-. now rewrite valid_type_schema.
  - apply P_other; [unfold char_schema; safe_lit| |exact I]. intros v sv j _ HS HJ. destruct v; cbn in HS; try discriminate.
    unfold check in HS. destruct (Z.eqb (char_count s) 1) eqn:EC; [|discriminate].
    injection HS as <-. injection HJ as <-. now rewrite valid_char.
  - apply P_other; [unfold formatted; safe_lit| |exact I]. intros v sv j _ HS HJ. destruct v; cbn in HS; try discriminate.
    destruct f as [[m e]|]; [|discriminate]. injection HS as <-. injection HJ as <-. rewrite valid_formatted. apply HFm.
  - apply P_other; [unfold formatted; safe_lit| |exact I]. intros v sv j _ HS HJ. destruct v; cbn in HS; try discriminate.
    destruct f as [[m e]|]; [|discriminate]. injection HS as <-. injection HJ as <-. rewrite valid_formatted. apply HFm.
  - apply P_other; [apply safe_true| |exact I]. intros v sv j _ HS HJ. reflexivity.
  - apply P_other; [unfold type_schema; safe_lit| |exact I]. intros v sv j _ HS HJ. destruct v; cbn in HS; try discriminate.
    destruct j0; try discriminate. injection HS as <-. rewrite valid_type_schema. destruct n0; injection HJ as <-; reflexivity.
  - split; try discriminate; [now apply (safe_int text_ok)|now apply int_sound|]. intros i' [= ->]. reflexivity.
  - intros d HD. rewrite (p_int _ _ _ _ _ _ _ HD i eq_refl). apply P_other; [now apply (safe_nonzero text_ok)|now apply nonzero_sound|exact I].
  - apply P_other; [apply safe_text|apply text_step|exact I].
  - intros a Ha. pose proof (A_safe _ _ _ _ tok_fresh _ _ _ Ha) as H1. pose proof (A_sound _ _ _ _ _ _ _ Ha) as H2.
    apply P_other; [now apply safe_allow_null|now apply option_step|exact I].
  - intros a Ha. pose proof (A_safe _ _ _ _ tok_fresh _ _ _ Ha) as H1. pose proof (A_sound _ _ _ _ _ _ _ Ha) as H2.
    apply P_other; [unfold seq_schema; safe_lit|now apply seq_step|exact I].
  - intros a Ha. pose proof (A_safe _ _ _ _ tok_fresh _ _ _ Ha) as H1. pose proof (A_sound _ _ _ _ _ _ _ Ha) as H2.
    apply P_other; [unfold set_schema; safe_lit|now apply set_step|exact I].
  - destruct n0.
    + apply P_other; [unfold empty_array_schema; safe_lit|apply empty_array_step|exact I].
    + intros a Ha. pose proof (A_safe _ _ _ _ tok_fresh _ _ _ Ha) as H1. pose proof (A_sound _ _ _ _ _ _ _ Ha) as H2.
    apply P_other; [unfold array_schema; safe_lit|now apply array_step|exact I].
  - apply subs_post. intros ss HF. cbn [post]. apply P_other; [unfold tuple_schema; safe_lit|now apply tuple_step|exact I].
  - intros ks HK vs HV defs HD. split; try discriminate; [now apply (safe_map text_ok)| |].
    2:{ intros v [= -> ->]. rewrite (p_str _ _ _ _ _ _ _ HK eq_refl). cbn [pred].
        apply string_map; [exact tok_fresh|now apply A_sound in HV|]. apply A_safe in HV; [|exact tok_fresh]. apply HV. }
    eapply map_sound; eauto; [apply HK|now apply A_sound in HV].
  - intros a Ha b Hb. pose proof (A_safe _ _ _ _ tok_fresh _ _ _ Ha) as H1. pose proof (A_sound _ _ _ _ _ _ _ Ha) as H2. pose proof (A_safe _ _ _ _ tok_fresh _ _ _ Hb) as H3. pose proof (A_sound _ _ _ _ _ _ _ Hb) as H4.
    apply P_other; [|now apply result_step|exact I].
    unfold result_schema. apply safe_subs; auto. repeat (apply Forall_cons; [now apply (safe_required_props text_ok)|]). apply Forall_nil.
  - intros a Ha b Hb. pose proof (A_safe _ _ _ _ tok_fresh _ _ _ Ha) as H1. pose proof (A_sound _ _ _ _ _ _ _ Ha) as H2. pose proof (A_safe _ _ _ _ tok_fresh _ _ _ Hb) as H3. pose proof (A_sound _ _ _ _ _ _ _ Hb) as H4.
    apply P_other; [|now apply bound_step|exact I].
    unfold bound_schema. apply safe_subs; auto. repeat (apply Forall_cons; [now apply (safe_required_props text_ok)|]). apply Forall_cons; [now apply safe_const|apply Forall_nil].
  - intros a Ha. pose proof (A_safe _ _ _ _ tok_fresh _ _ _ Ha) as H1. pose proof (A_sound _ _ _ _ _ _ _ Ha) as H2.
    apply P_other; [|now apply range_step|exact I]. unfold range_schema. now apply (safe_required_props text_ok).
  - intros a Ha b Hb. rewrite (p_int _ _ _ _ _ _ _ Ha U64 eq_refl), (p_int _ _ _ _ _ _ _ Hb U32 eq_refl).
    apply P_other; [now apply (safe_required_props text_ok)| |exact I]. apply (u64_u32_step _ _ _ "Duration"); [discriminate|].
    intros v. now destruct v.
  - intros a Ha b Hb. rewrite (p_int _ _ _ _ _ _ _ Ha U64 eq_refl), (p_int _ _ _ _ _ _ _ Hb U32 eq_refl).
    apply P_other; [now apply (safe_required_props text_ok)| |exact I]. apply (u64_u32_step _ _ _ "SystemTime"); [discriminate|].
    intros v. now destruct v.
  - intros a Ha b Hb. apply P_other; [|apply os_string_step; [apply Ha|apply Hb]|exact I].
    unfold os_string_schema. apply safe_subs; auto. repeat (apply Forall_cons; [now apply (safe_required_props text_ok)|]). apply Forall_nil.
  - apply P_other; [unfold c_string_schema; destruct (s_contract S);
      [apply safe_plain; [exact FN|reflexivity|reflexivity|reflexivity|reflexivity|now apply fresh_mk]|safe_lit]|apply c_string_step|exact I].
  - intros a Ha b Hb. pose proof (A_safe _ _ _ _ tok_fresh _ _ _ Ha) as H1. pose proof (A_sound _ _ _ _ _ _ _ Ha) as H2. pose proof (A_safe _ _ _ _ tok_fresh _ _ _ Hb) as H3. pose proof (A_sound _ _ _ _ _ _ _ Hb) as H4.
    apply P_other; [|now apply either_step|exact I].
    unfold either_schema. rewrite !either_external. apply safe_subs; auto. repeat (apply Forall_cons; [apply safe_external|]). apply Forall_nil.
  - intros a Ha. pose proof (A_safe _ _ _ _ tok_fresh _ _ _ Ha) as H1. pose proof (A_sound _ _ _ _ _ _ _ Ha) as H2.
    apply P_other; [unfold array_vec_schema; safe_lit|now apply array_vec_step|exact I].
  - intros a Ha. pose proof (A_sound _ _ _ _ _ _ _ Ha) as H2. apply P_other; [|now apply bytes_step|exact I].
    unfold bytes1_schema. destruct (s_contract S);
      [apply safe_plain; [exact FN|reflexivity|reflexivity|reflexivity|reflexivity|now apply fresh_mk]|safe_lit].
  - apply P_other; [unfold time_delta_schema; safe_lit|apply time_delta_step|exact I].
  - eapply post_weak; [|apply IHt, HAdt]. intros s HP. split; try discriminate; [apply HP|apply sound_fwd, HP|apply HP|apply HP|apply HP].
  - eapply post_weak; [|apply IHt, HAdt]. intros s HP. split; try discriminate; [apply HP|apply sound_weak, HP|apply HP|apply HP|apply HP].
  - exact (HAdt _ _ _ eq_refl).
Qed.
End StdSound.
