(** Declaring a property and requiring it: the meaning of "properties" and "required" under the
    helpers that extend them. *)
From Coq Require Import String Ascii List ZArith NArith Bool Lia.
From Verif Require Import Json JsonFacts Utf8 SchemaApi Validate ValidateFacts ValidateKw Private.
Import ListNotations.
Open Scope string_scope.

Section Props.
Variable E : env.

(** The declared properties of a schema's map. *)
Definition props_of (m : map_t) : map_t :=
  match mget "properties" m with Some (JObj ps) => ps | _ => [] end.
Definition required_of (m : map_t) : list json :=
  match mget "required" m with Some (JArr l) => l | _ => [] end.

(** Each declared property that is present has an accepted value. *)
Definition props_ok (ps : map_t) (v : json) : bool :=
  match v with
  | JObj o => forallb (fun kx => match mget (fst kx) ps with
                                 | Some s => valid D2020 E s (snd kx) | None => true end) o
  | _ => true
  end.
Definition required_ok (l : list json) (v : json) : bool :=
  match v with
  | JObj o => forallb (fun x => match x with JStr n => mhas n o | _ => true end) l
  | _ => true
  end.

Lemma mget_den ps k : mget k (map (fun kv : string * json => (fst kv, eval D2020 E (snd kv))) ps)
                      = option_map (eval D2020 E) (mget k ps).
Proof. induction ps as [|[k' x] ps IH]; [reflexivity|]. cbn. destruct (String.eqb k k'); auto. Qed.

Lemma chk_props_ok ps v : chk_props (Some (sub_of D2020 E (JObj ps))) v = props_ok ps v.
Proof.
  destruct v; try reflexivity. cbn. apply forallb_eq. intros [k x] _. cbn. rewrite mget_den.
  now destruct (mget k ps).
Qed.

Lemma in_props_den ps k : in_props (Some (sub_of D2020 E (JObj ps))) k = mhas k ps.
Proof. cbn. unfold mhas. rewrite mget_den. now destruct (mget k ps). Qed.

Lemma in_props_of m k :
  (mget "properties" m = None \/ exists ps, mget "properties" m = Some (JObj ps)) ->
  in_props (subk E m "properties") k = mhas k (props_of m).
Proof.
  unfold subk, props_of. intros [H|[ps H]]; rewrite H; [reflexivity|]. apply in_props_den.
Qed.

Lemma kw_ext_props m m' k x v :
  (forall c, In c ctx -> c <> "properties" -> mget c m = mget c m') ->
  (forall n, in_props (subk E m "properties") n = in_props (subk E m' "properties") n) ->
  kw E m k x v = kw E m' k x v.
Proof.
  intros H HP. unfold kw.
  assert (HU : chk_uneval (Some (sub_of D2020 E x)) (ev_of E m v) v
             = chk_uneval (Some (sub_of D2020 E x)) (ev_of E m' v) v).
  { apply chk_uneval_eq; auto. intros k'. unfold ev_of, ev_main. rewrite HP. cbn [d_extra d_depend D2020 when].
    unfold subk. now rewrite !H by (in_names || discriminate). }
  rewrite HU.
  assert (HA : chk_additional E (subk E m "properties") (subk E m "patternProperties") (Some (sub_of D2020 E x)) v
             = chk_additional E (subk E m' "properties") (subk E m' "patternProperties") (Some (sub_of D2020 E x)) v).
  { unfold chk_additional. destruct v; auto. apply forallb_eq. intros [n y] _. cbn [fst snd]. rewrite HP.
    unfold subk. now rewrite !H by (in_names || discriminate). }
  rewrite HA. unfold subk. now rewrite !H by (in_names || discriminate).
Qed.

(** Two schemas that differ only in the schemas of the declared properties. *)
Lemma props_swap m m' ps ps' v :
  mget "properties" m = Some (JObj ps) -> mget "properties" m' = Some (JObj ps') ->
  (forall c, c <> "properties" -> mget c m = mget c m') ->
  (forall n, mhas n ps = mhas n ps') ->
  valid D2020 E (JObj m) v && props_ok ps' v = valid D2020 E (JObj m') v && props_ok ps v.
Proof.
  intros H1 H2 H3 H4.
  assert (HK : forall k x, kw E m k x v = kw E m' k x v).
  { intros k x. apply kw_ext_props; [auto|]. intros n. unfold subk. rewrite H1, H2. cbn [option_map].
    now rewrite !in_props_den. }
  assert (HP : forall mm q y, kw E mm "properties" (JObj q) y = props_ok q y).
  { intros mm q y. unfold kw. cbn [String.eqb Ascii.eqb Bool.eqb existsb assertion_names orb]. apply chk_props_ok. }
  apply eq_true_iff_eq. rewrite !andb_true_iff, !valid_kw. split; intros [A B].
  - split; [|rewrite <- (HP m); now apply A]. intros k x Hx. destruct (String.eqb_spec k "properties") as [->|Hk].
    + rewrite H2 in Hx. injection Hx as <-. now rewrite HP.
    + rewrite <- HK. apply A. now rewrite H3.
  - split; [|rewrite <- (HP m'); now apply A]. intros k x Hx. destruct (String.eqb_spec k "properties") as [->|Hk].
    + rewrite H1 in Hx. injection Hx as <-. now rewrite HP.
    + rewrite HK. apply A. now rewrite <- H3.
Qed.

Lemma mget_In_val {A} (k : string) (o : list (string * A)) : NoDup (map fst o) -> forall x,
  In (k, x) o -> mget k o = Some x.
Proof. intros ND x H. now apply NoDup_mget. Qed.

Lemma props_ok_set ps key s o : NoDup (map fst o) ->
  props_ok (mset key s ps) (JObj o)
  = match mget key o with Some x => valid D2020 E s x | None => true end
    && props_ok (mset key (JBool true) ps) (JObj o).
Proof.
  intros ND. cbn [props_ok]. apply eq_true_iff_eq. rewrite andb_true_iff, !forallb_forall. split.
  - intros H. split.
    + destruct (mget key o) as [x|] eqn:EM; [|reflexivity]. apply mget_In in EM. specialize (H _ EM).
      cbn in H. now rewrite mget_mset, String.eqb_refl in H.
    + intros [k x] Hin. specialize (H _ Hin). cbn in *. rewrite mget_mset in *.
      destruct (String.eqb k key); auto.
  - intros [H1 H2] [k x] Hin. specialize (H2 _ Hin). cbn in *. rewrite mget_mset in *.
    destruct (String.eqb_spec k key) as [->|]; auto.
    rewrite (mget_In_val key o ND x Hin) in H1. exact H1.
Qed.

Lemma props_ok_set_ok ps key s v : props_ok (mset key s ps) v = true ->
  props_ok (mset key (JBool true) ps) v = true.
Proof.
  destruct v; cbn [props_ok]; auto. rewrite !forallb_forall. intros H [k x] Hin. specialize (H _ Hin).
  cbn in *. rewrite mget_mset in *. destruct (String.eqb k key); auto.
Qed.

Lemma mhas_mset {A} k k' (x : A) m : mhas k (mset k' x m) = String.eqb k k' || mhas k m.
Proof. unfold mhas. rewrite mget_mset. now destruct (String.eqb k k'). Qed.

(** Declaring [key] with the schema [sub], compared with declaring it unconstrained. *)
Lemma declare_property m ps key sub o : NoDup (map fst o) ->
  valid D2020 E (JObj (mset "properties" (JObj (mset key sub ps)) m)) (JObj o)
  = match mget key o with Some x => valid D2020 E sub x | None => true end
    && valid D2020 E (JObj (mset "properties" (JObj (mset key (JBool true) ps)) m)) (JObj o).
Proof.
  intros ND.
  pose proof (props_swap (mset "properties" (JObj (mset key sub ps)) m)
    (mset "properties" (JObj (mset key (JBool true) ps)) m) (mset key sub ps) (mset key (JBool true) ps) (JObj o)) as H.
  rewrite !mget_mset in H. cbn [String.eqb Ascii.eqb Bool.eqb] in H.
  specialize (H eq_refl eq_refl).
  assert (H3 : forall c, c <> "properties" -> mget c (mset "properties" (JObj (mset key sub ps)) m)
     = mget c (mset "properties" (JObj (mset key (JBool true) ps)) m)).
  { intros c Hc. rewrite !mget_mset. destruct (String.eqb_spec c "properties"); congruence. }
  specialize (H H3). assert (H4 : forall n, mhas n (mset key sub ps) = mhas n (mset key (JBool true) ps)).
  { intros n. now rewrite !mhas_mset. }
  specialize (H H4). rewrite (props_ok_set ps key sub) in H by exact ND.
  set (p := props_ok (mset key (JBool true) ps) (JObj o)) in *.
  set (q := match mget key o with Some x => valid D2020 E sub x | None => true end) in *.
  set (a := valid D2020 E (JObj (mset "properties" (JObj (mset key sub ps)) m)) (JObj o)) in *.
  set (b := valid D2020 E (JObj (mset "properties" (JObj (mset key (JBool true) ps)) m)) (JObj o)) in *.
  assert (HB : b = true -> p = true).
  { unfold b, p. intros Hv. rewrite valid_kw in Hv. specialize (Hv "properties" (JObj (mset key (JBool true) ps))).
    rewrite mget_mset in Hv. cbn [String.eqb Ascii.eqb Bool.eqb] in Hv. specialize (Hv eq_refl).
    unfold kw in Hv. cbn [String.eqb Ascii.eqb Bool.eqb existsb assertion_names orb] in Hv.
    now rewrite chk_props_ok in Hv. }
  assert (HA : a = true -> q && p = true).
  { unfold a, q, p. intros Hv. rewrite valid_kw in Hv. specialize (Hv "properties" (JObj (mset key sub ps))).
    rewrite mget_mset in Hv. cbn [String.eqb Ascii.eqb Bool.eqb] in Hv. specialize (Hv eq_refl).
    unfold kw in Hv. cbn [String.eqb Ascii.eqb Bool.eqb existsb assertion_names orb] in Hv.
    rewrite chk_props_ok in Hv. now rewrite props_ok_set in Hv by exact ND. }
  clearbody a b p q. clear - H HA HB.
  destruct a, b, p, q; cbn in *; try reflexivity; try discriminate H; try (specialize (HA eq_refl); discriminate);
    try (specialize (HB eq_refl); discriminate).
Qed.

(** "required" and "type" are independent of the other keywords. *)
Lemma valid_required m l v : mget "required" m = Some (JArr l) ->
  valid D2020 E (JObj m) v = required_ok l v && valid D2020 E (JObj (mdel "required" m)) v.
Proof.
  intros H. rewrite (valid_out E "required") by (intros HH; cbn in HH; repeat (destruct HH as [HH|HH]; [discriminate|]); exact HH).
  unfold kw_all. rewrite H. destruct v; reflexivity.
Qed.

Lemma valid_required' m v :
  (mget "required" m = None \/ exists l, mget "required" m = Some (JArr l)) ->
  valid D2020 E (JObj m) v = required_ok (required_of m) v && valid D2020 E (JObj (mdel "required" m)) v.
Proof.
  intros [H|[l H]].
  - unfold required_of. rewrite H. cbn [required_ok]. replace (required_ok [] v) with true by (destruct v; reflexivity).
    cbn [andb]. apply valid_lookup. intros k. rewrite mget_mdel. destruct (String.eqb_spec k "required"); congruence.
  - unfold required_of. rewrite H. now apply valid_required.
Qed.

Lemma valid_type m t v : mget "type" m = Some (JStr t) ->
  valid D2020 E (JObj m) v = type_ok t v && valid D2020 E (JObj (mdel "type" m)) v.
Proof.
  intros H. rewrite (valid_out E "type") by (intros HH; cbn in HH; repeat (destruct HH as [HH|HH]; [discriminate|]); exact HH).
  unfold kw_all. rewrite H. unfold kw. cbn [String.eqb Ascii.eqb Bool.eqb]. unfold chk_type. cbn [d_nullable D2020 andb].
  now rewrite orb_false_r.
Qed.

(** ** Object schemas with only type, properties, required and additionalProperties *)
Definition object_keywords : list string := ["type"; "properties"; "required"; "additionalProperties"].

Definition object_shape (m : map_t) : Prop :=
  (forall k, In k kws -> mget k m <> None -> In k object_keywords)
  /\ (mget "type" m = None \/ mget "type" m = Some (JStr "object"))
  /\ (mget "properties" m = None \/ exists ps, mget "properties" m = Some (JObj ps))
  /\ (mget "required" m = None \/ exists l, mget "required" m = Some (JArr l)).

(** Each property that is not declared has a value accepted by additionalProperties. *)
Definition additional_ok (m : map_t) (o : map_t) : bool :=
  match mget "additionalProperties" m with
  | Some a => forallb (fun kx => mhas (fst kx) (props_of m) || valid D2020 E a (snd kx)) o
  | None => true
  end.

Lemma valid_shape m o : object_shape m ->
  valid D2020 E (JObj m) (JObj o)
  = props_ok (props_of m) (JObj o) && required_ok (required_of m) (JObj o) && additional_ok m o.
Proof.
  intros (HK & HT & HP & HR). apply eq_true_iff_eq. rewrite valid_kw, !andb_true_iff. split.
  - intros H. repeat split.
    + destruct HP as [HP|[ps HP]]; unfold props_of; rewrite HP.
      * cbn. apply forallb_forall. auto.
      * specialize (H _ _ HP). unfold kw in H. cbn [String.eqb Ascii.eqb Bool.eqb existsb assertion_names orb] in H.
        now rewrite chk_props_ok in H.
    + destruct HR as [HR|[l HR]]; unfold required_of; rewrite HR; [reflexivity|].
      exact (H _ _ HR).
    + unfold additional_ok. destruct (mget "additionalProperties" m) as [a|] eqn:EA; [|reflexivity].
      specialize (H _ _ EA). unfold kw in H. cbn [String.eqb Ascii.eqb Bool.eqb existsb assertion_names orb] in H.
      unfold chk_additional in H. rewrite forallb_forall in *. intros [k x] Hin. specialize (H _ Hin). cbn [fst snd] in *.
      rewrite in_props_of in H by exact HP.
      assert (HPP : mget "patternProperties" m = None).
      { destruct (mget "patternProperties" m) eqn:EP; [|reflexivity]. exfalso.
        assert (Hn : In "patternProperties" object_keywords) by (apply HK; [in_names|congruence]).
        cbn in Hn. intuition discriminate. }
      unfold subk in H. rewrite HPP in H. cbn [option_map in_patterns obj_of] in H. now rewrite orb_false_r in H.
  - intros [[A B] C] k x Hx. destruct (in_dec string_dec k kws) as [Hk|Hk]; [|now apply kw_other].
    assert (Hi : In k object_keywords) by (apply HK; [exact Hk|congruence]).
    cbn [In object_keywords] in Hi. destruct Hi as [<-|[<-|[<-|[<-|[]]]]].
    + destruct HT as [HT|HT]; rewrite HT in Hx; [discriminate|]. injection Hx as <-. reflexivity.
    + destruct HP as [HP|[ps HP]]; rewrite HP in Hx; [discriminate|]. injection Hx as <-.
      unfold kw. cbn [String.eqb Ascii.eqb Bool.eqb existsb assertion_names orb]. rewrite chk_props_ok.
      unfold props_of in A. now rewrite HP in A.
    + destruct HR as [HR|[l HR]]; rewrite HR in Hx; [discriminate|]. injection Hx as <-.
      unfold required_of in B. rewrite HR in B. exact B.
    + unfold additional_ok in C. rewrite Hx in C.
      unfold kw. cbn [String.eqb Ascii.eqb Bool.eqb existsb assertion_names orb].
      unfold chk_additional. rewrite forallb_forall in *. intros [k y] Hin. specialize (C _ Hin). cbn [fst snd] in *.
      rewrite in_props_of by exact HP. destruct (mhas k (props_of m)); [reflexivity|]. cbn [orb] in *.
      cbn [s_den sub_of]. change (ok (eval D2020 E x y)) with (valid D2020 E x y). rewrite C. apply orb_true_r.
Qed.

End Props.
