(** Structural specification of the built-in transforms: exactly which keywords of which visited
    object change, and to what. The relations are independent of the model's recursion. *)
From Coq Require Import String Ascii List ZArith Bool Lia.
From Verif Require Import Json JsonFacts SchemaApi Validate ValidateFacts Transform TransformSpec
  TransformProofs TransformSem TransformNullable TransformFormats TransformUneval TransformPost.
Import ListNotations.
Open Scope string_scope.

(** ** Specification *)
(** [elem R x y]: [y] is [x], related by [R] if it is a schema and unchanged otherwise. *)
Definition elem (R : json -> json -> Prop) (x y : json) : Prop :=
  (is_schema x = true /\ R x y) \/ (is_schema x = false /\ y = x).

(** The value of keyword [k], with the subschemas in it related by [R]. *)
Inductive below (R : json -> json -> Prop) (k : string) : json -> json -> Prop :=
| bl_one x y : In k kw_one -> is_schema x = true -> R x y -> below R k x y
| bl_list l l' : In k kw_list -> Forall2 (elem R) l l' -> below R k (JArr l) (JArr l')
| bl_map p p' : In k kw_map ->
    Forall2 (fun a b => fst b = fst a /\ elem R (snd a) (snd b)) p p' ->
    below R k (JObj p) (JObj p')
| bl_same x : ~ (In k kw_one /\ is_schema x = true) ->
    (forall l, ~ (In k kw_list /\ x = JArr l)) -> (forall p, ~ (In k kw_map /\ x = JObj p)) ->
    below R k x x.

(** The same object with its direct subschemas related by [R]. *)
Definition inside (R : json -> json -> Prop) (m m' : map_t) : Prop :=
  Forall2 (fun a b => fst b = fst a /\ below R (fst a) (snd a) (snd b)) m m'.

(** Subschemas first, then [step] on the object itself. *)
Inductive bottom_up (step : map_t -> map_t -> Prop) : json -> json -> Prop :=
| bu_leaf s : is_obj s = false -> bottom_up step s s
| bu_obj m m1 m2 : inside (bottom_up step) m m1 -> step m1 m2 ->
    bottom_up step (JObj m) (JObj m2).

(** [step] on the object itself, then the subschemas. *)
Inductive top_down (step : map_t -> map_t -> Prop) : json -> json -> Prop :=
| td_leaf s : is_obj s = false -> top_down step s s
| td_obj m m1 m2 : step m m1 -> inside (top_down step) m1 m2 ->
    top_down step (JObj m) (JObj m2).

(** [m'] differs from [m] at most in the keywords [ks]. *)
Definition same_but (ks : list string) (m m' : map_t) : Prop :=
  forall k, ~ In k ks -> mget k m' = mget k m.

Definition const_step (m m' : map_t) : Prop :=
  (mget "const" m = None /\ m' = m)
  \/ exists c, mget "const" m = Some c /\ same_but ["const"; "enum"] m m'
       /\ mget "const" m' = None /\ mget "enum" m' = Some (JArr [c]).

Definition ref_step (m m' : map_t) : Prop :=
  (mget "$ref" m = None /\ m' = m)
  \/ (exists r, m = [("$ref", r)] /\ m' = m)
  \/ exists r, mget "$ref" m = Some r /\ 1 < List.length m
       /\ same_but ["$ref"; "allOf"] m m' /\ mget "$ref" m' = None
       /\ match mget "allOf" m with
          | None => mget "allOf" m' = Some (JArr [JObj [("$ref", r)]])
          | Some (JArr l) => mget "allOf" m' = Some (JArr (l ++ [JObj [("$ref", r)]]))
          | Some x => mget "allOf" m' = Some x
          end.

Definition example_step (m m' : map_t) : Prop :=
  same_but ["examples"; "example"] m m' /\ mget "examples" m' = None
  /\ mget "example" m' = match mget "examples" m with
                         | Some (JArr (x :: _)) => Some x
                         | _ => mget "example" m
                         end.

Definition prefix_step (m m' : map_t) : Prop :=
  (mget "prefixItems" m = None /\ m' = m)
  \/ exists p, mget "prefixItems" m = Some p
       /\ same_but ["prefixItems"; "items"; "additionalItems"] m m'
       /\ mget "prefixItems" m' = None /\ mget "items" m' = Some p
       /\ mget "additionalItems" m' = match mget "items" m with
                                      | Some i => Some i | None => mget "additionalItems" m end.

(** [n] is named by "properties" in the schema, or in-place below it. *)
Inductive mentions : json -> string -> Prop :=
| me_here m p n : mget "properties" m = Some (JObj p) -> In n (map fst p) -> mentions (JObj m) n
| me_below m x n : in_place m x -> mentions x n -> mentions (JObj m) n.

(** The properties of the object schema [m] (none if "properties" is absent). *)
Definition props_of (m : map_t) : map_t :=
  match mget "properties" m with Some (JObj p) => p | _ => [] end.

Definition uneval_step (m m' : map_t) : Prop :=
  (mget "unevaluatedProperties" m = None /\ m' = m)
  \/ exists u, mget "unevaluatedProperties" m = Some u
       /\ same_but ["unevaluatedProperties"; "additionalProperties"; "properties"] m m'
       /\ mget "unevaluatedProperties" m' = None
       /\ mget "additionalProperties" m' = Some u
       /\ ((exists x, mget "properties" m = Some x /\ is_obj x = false /\ mget "properties" m' = Some x)
           \/ forall n y, mget n (props_of m') = Some y <->
                mget n (props_of m) = Some y
                \/ (mget n (props_of m) = None /\ mentions (JObj m) n /\ y = JBool true)).

(** The names in "type" other than "null". *)
Definition other_types (m : map_t) : list json :=
  match mget "type" m with
  | Some (JArr l) => filter (fun t => negb (is_null_name t)) l
  | _ => []
  end.
(** "type" admits null by name. *)
Definition null_typed (m : map_t) : Prop :=
  mget "type" m = Some (JStr "null") \/ exists l, mget "type" m = Some (JArr l) /\ In (JStr "null") l.

Definition nullable_step (remove_null_type add_const_null : bool) (m m' : map_t) : Prop :=
  (~ null_typed m /\ m' = m)
  \/ (null_typed m /\ same_but ["nullable"; "type"; "const"] m m'
      /\ mget "nullable" m' = Some (JBool true)
      /\ mget "const" m' = (if add_const_null then match other_types m with [] => Some JNull | _ => mget "const" m end
                            else mget "const" m)
      /\ mget "type" m' =
           if remove_null_type then
             match other_types m with
             | [] => if add_const_null then None else Some (JArr [])
             | [t] => Some t
             | ts => Some (JArr ts)
             end
           else mget "type" m).

(** ReplaceBoolSchemas: [skip] leaves "additionalProperties" alone. *)
Inductive no_bools (skip : bool) : json -> json -> Prop :=
| nb_true : no_bools skip (JBool true) (JObj [])
| nb_false : no_bools skip (JBool false) (JObj [("not", JObj [])])
| nb_obj m m' :
    (forall k, mhas k m' = mhas k m) ->
    (forall k x y, k <> "additionalProperties" \/ skip = false ->
       mget k m = Some x -> mget k m' = Some y -> below (no_bools skip) k x y) ->
    (skip = true -> mget "additionalProperties" m' = mget "additionalProperties" m) ->
    no_bools skip (JObj m) (JObj m').

(** RestrictFormats: [next_ctx] says which meta schema is in force for an object and below it
    ([None]: unrecognised), [permitted] whether a format is allowed under it. *)
Inductive restricted (infer : bool) (allowed : list string) : ctx -> json -> json -> Prop :=
| rs_leaf c s : is_obj s = false -> restricted infer allowed c s s
| rs_unknown c m : next_ctx infer c m = None -> restricted infer allowed c (JObj m) (JObj m)
| rs_obj c m c1 m1 m2 : next_ctx infer c m = Some c1 -> same_but ["format"] m m1 ->
    (mget "format" m1 = match mget "format" m with
                        | Some (JStr f) => if permitted allowed c1 f then Some (JStr f) else None
                        | o => o
                        end) ->
    inside (restricted infer allowed c1) m1 m2 ->
    restricted infer allowed c (JObj m) (JObj m2).

(** ** Proofs *)
Lemma try_sub_elem T (R : json -> json -> Prop) x : (is_schema x = true -> R x (T x)) -> elem R x (try_sub_p T x).
Proof. unfold elem, try_sub_p. destruct (is_schema x); auto. Qed.

Lemma sub_value_below T (R : json -> json -> Prop) k x :
  (forall y, In y (direct_of (shape_of k) x) -> R y (T y)) ->
  below R k x (sub_value_p T (shape_of k) x).
Proof.
  intros H. assert (H1 := in_one k). assert (H2 := in_list k). assert (H3 := in_kwmap k).
  assert (HL : forall l, (forall y, In y (filter is_schema l) -> R y (T y)) ->
    Forall2 (elem R) l (map (try_sub_p T) l)).
  { intros l. induction l as [|y l IH]; intros Hl; cbn [map]; constructor.
    - apply try_sub_elem. intros Hy. apply Hl. cbn. rewrite Hy. now left.
    - apply IH. intros z Hz. apply Hl. cbn. destruct (is_schema y); auto. now right. }
  assert (HO : shape_of k = One \/ (shape_of k = OneOrMany /\ forall l, x <> JArr l) ->
    (is_schema x = true -> R x (T x)) -> below R k x (try_sub_p T x)).
  { intros Hk HR. unfold try_sub_p. destruct (is_schema x) eqn:Hx.
    - apply bl_one; auto. apply H1. tauto.
    - apply bl_same.
      + intros [_ ?]; congruence.
      + intros l [Hl ->]. apply H2 in Hl. destruct Hk as [Hk|[Hk Hk']]; [|now apply (Hk' l)].
        destruct Hl; congruence.
      + intros p [Hp ->]. discriminate. }
  destruct (shape_of k) eqn:Hs; cbn [sub_value_p].
  - apply HO; auto. intros Hx. apply H. cbn. rewrite Hx. now left.
  - assert (In k kw_list) by (apply H2; auto).
    destruct x as [| | | |l|]; try (apply bl_same;
      [intros [Hk Hx]; apply H1 in Hk as [?|?]; discriminate
      |intros l' [_ ?]; discriminate
      |intros p [Hp _]; apply H3 in Hp; discriminate]).
    apply bl_list; auto.
  - destruct x as [| | | |l|]; try (apply HO;
      [right; split; auto; discriminate|intros Hx; apply H; cbn; auto; discriminate]).
    apply bl_list; [apply H2; auto|]. apply HL, H.
  - assert (In k kw_map) by (apply H3; auto).
    destruct x as [| | | | |p]; try (apply bl_same;
      [intros [Hk Hx]; apply H1 in Hk as [?|?]; discriminate
      |intros l' [Hl _]; apply H2 in Hl as [?|?]; discriminate
      |intros p [_ ?]; discriminate]).
    apply bl_map; auto. cbn [direct_of] in H. clear -H.
    induction p as [|[n y] p IH]; cbn [map]; constructor.
    + cbn [fst snd]. split; auto. apply try_sub_elem. intros Hy. apply H. cbn. rewrite Hy. now left.
    + apply IH. intros z Hz. apply H. cbn. destruct (is_schema y); auto. now right.
  - replace (match x with JArr _ => x | JObj _ => x | _ => x end) with x by now destruct x.
    apply bl_same.
    + intros [Hk Hx]; apply H1 in Hk as [?|?]; discriminate.
    + intros l' [Hl _]; apply H2 in Hl as [?|?]; discriminate.
    + intros p [Hp _]; apply H3 in Hp; discriminate.
Qed.

Lemma tmap_inside T (R : json -> json -> Prop) m : (forall x, direct_sub m x -> R x (T x)) ->
  inside R m (tmap T m).
Proof.
  intros H. unfold inside, tmap.
  assert (HH : forall k v y, In (k, v) m -> In y (direct_of (shape_of k) v) -> R y (T y)).
  { intros k v y Hin Hy. apply H. eapply direct_In; eauto. }
  clear H. induction m as [|[k v] m IH]; cbn [map]; constructor.
  - cbn [fst snd]. split; auto. apply sub_value_below. intros y Hy. eapply HH; [now left|exact Hy].
  - apply IH. intros k' v' y Hin. apply HH. now right.
Qed.

Lemma post_bottom_up here (step : map_t -> map_t -> Prop) :
  (forall s, is_obj s = false -> here s = s) ->
  (forall m, exists m', here (JObj m) = JObj m' /\ step m m') ->
  forall s, bottom_up step s (post here s).
Proof.
  intros HL HS. refine (direct_ind _ _ _).
  - intros s Hs. rewrite post_leaf, HL by auto. now apply bu_leaf.
  - intros m IH. rewrite post_obj. destruct (HS (tmap (post here) m)) as (m' & -> & Hm').
    eapply bu_obj; [|exact Hm']. now apply tmap_inside.
Qed.

Lemma eqb_ne a b : a <> b -> String.eqb a b = false.
Proof. apply String.eqb_neq. Qed.

Ltac frame :=
  intros k Hk; cbn [In] in Hk; repeat first [rewrite mget_mset | rewrite mget_mdel];
  repeat match goal with |- context [String.eqb k ?s] => rewrite (eqb_ne k s) by intuition end;
  reflexivity.

Ltac lk := repeat (first [rewrite mget_mset | rewrite mget_mdel]; cbn [String.eqb Ascii.eqb Bool.eqb]).

Lemma const_frame s : bottom_up const_step s (replace_const s).
Proof.
  apply (post_bottom_up replace_const_here); [now intros []|]. intros m. cbn [replace_const_here].
  destruct (mget "const" m) as [c|] eqn:Hc; eexists; (split; [reflexivity|]); [right|left; auto].
  exists c. split; auto. split; [frame|]. split; rewrite mget_mset, ?mget_mdel; reflexivity.
Qed.

Lemma ref_frame s : bottom_up ref_step s (remove_ref_siblings s).
Proof.
  apply (post_bottom_up remove_ref_siblings_here); [now intros []|]. intros m.
  cbn [remove_ref_siblings_here].
  destruct (mget "$ref" m) as [r|] eqn:Hr.
  2:{ exists m. split; [now destruct (Nat.ltb 1 (List.length m))|]. left. auto. }
  destruct (Nat.ltb 1 (List.length m)) eqn:HL.
  2:{ exists m. split; auto. right; left. exists r. split; auto. now apply short_map. }
  apply Nat.ltb_lt in HL.
  assert (Ha : mget "allOf" (mdel "$ref" m) = mget "allOf" m) by now rewrite mget_mdel.
  rewrite Ha.
  destruct (mget "allOf" m) as [[| | | |l|]|] eqn:Hm; eexists; (split; [reflexivity|]);
    right; right; exists r; (split; [exact Hr|]); (split; [exact HL|]);
    (split; [frame|]); rewrite ?mget_mset; cbn [String.eqb Ascii.eqb Bool.eqb]; rewrite ?mget_mdel;
    cbn [String.eqb Ascii.eqb Bool.eqb]; rewrite ?Hm; auto.
Qed.

Lemma example_frame s : bottom_up example_step s (set_single_example s).
Proof.
  apply (post_bottom_up set_single_example_here); [now intros []|]. intros m.
  cbn [set_single_example_here]. unfold example_step.
  destruct (mget "examples" m) as [[| | | |[|x l]|]|] eqn:Hc; eexists; (split; [reflexivity|]);
    (split; [frame|]); rewrite ?mget_mset, ?mget_mdel; auto.
Qed.

Lemma prefix_frame s : bottom_up prefix_step s (replace_prefix_items s).
Proof.
  apply (post_bottom_up replace_prefix_here); [now intros []|]. intros m. cbn [replace_prefix_here].
  destruct (mget "prefixItems" m) as [p|] eqn:Hp.
  2:{ exists m. split; auto. left; auto. }
  rewrite mget_mdel. cbn [String.eqb Ascii.eqb Bool.eqb].
  destruct (mget "items" m) as [i|] eqn:Hi; eexists; (split; [reflexivity|]); right; exists p;
    (split; [exact Hp|]); (split; [frame|]); rewrite ?Hi, ?mget_mset, ?mget_mdel;
    cbn [String.eqb Ascii.eqb Bool.eqb]; rewrite ?mget_mset; cbn [String.eqb Ascii.eqb Bool.eqb];
    rewrite ?mget_mdel; cbn [String.eqb Ascii.eqb Bool.eqb]; auto.
Qed.

Lemma gather_mentions s : forall n, In n (gather_names s) <-> mentions s n.
Proof.
  split.
  - revert n. induction s as [s IH] using (well_founded_induction (Wf_nat.well_founded_ltof _ depth)).
    intros n Hn. destruct s as [| | | | |m]; try contradiction.
    rewrite gather_obj in Hn. apply in_app_iff in Hn as [Hn|Hn].
    + destruct (mget "properties" m) as [[| | | | |p]|] eqn:Hp; try contradiction.
      eapply me_here; eauto.
    + apply in_flat_map in Hn as ([k x] & Hin & Hn). unfold imm_names in Hn; cbn [fst snd] in Hn.
      destruct (immediate_shape k) eqn:Hk; try contradiction.
      * destruct (is_schema x) eqn:Hx; [|contradiction]. apply imm_one in Hk.
        assert (HP : in_place m x) by (eapply ip_one; eauto).
        eapply me_below; [exact HP|]. apply IH; auto.
        assert (HD : direct_sub m x).
        { apply (ds_one m k); auto. in_cases Hk; in_names. }
        unfold ltof. now apply direct_depth.
      * destruct x as [| | | |l|]; try contradiction. apply in_flat_map in Hn as (y & Hy & Hn).
        destruct (is_schema y) eqn:Hsy; [|contradiction]. apply imm_many in Hk.
        assert (HP : in_place m y) by (eapply ip_list; eauto).
        eapply me_below; [exact HP|]. apply IH; auto.
        assert (HD : direct_sub m y).
        { apply (ds_list m k l); auto. in_cases Hk; in_names. }
        unfold ltof. now apply direct_depth.
  - induction 1 as [m p n Hp Hn|m x n Hx _ IH].
    + rewrite gather_obj, Hp. apply in_app_iff. now left.
    + eapply gather_in_place; eauto.
Qed.

Lemma uneval_frame s : bottom_up uneval_step s (replace_uneval s).
Proof.
  apply (post_bottom_up replace_uneval_here); [now intros []|]. intros m. cbn [replace_uneval_here].
  destruct (mget "unevaluatedProperties" m) as [u|] eqn:Hu.
  2:{ exists m. split; auto. left; auto. }
  set (m1 := mset "additionalProperties" u (mdel "unevaluatedProperties" m)).
  assert (Hp1 : mget "properties" m1 = mget "properties" m) by (unfold m1; rewrite mget_mset, mget_mdel; reflexivity).
  assert (HF : same_but ["unevaluatedProperties"; "additionalProperties"; "properties"] m m1) by (unfold m1; frame).
  assert (HU : mget "unevaluatedProperties" m1 = None) by (unfold m1; rewrite mget_mset, mget_mdel; reflexivity).
  assert (HA : mget "additionalProperties" m1 = Some u) by (unfold m1; rewrite mget_mset; reflexivity).
  assert (HIP : forall x, in_place m1 x <-> in_place m x).
  { assert (HIn : forall k y, k <> "additionalProperties" -> k <> "unevaluatedProperties" -> In (k, y) m1 <-> In (k, y) m).
    { intros k y Ha Hu'. unfold m1. clear -Ha Hu'. split.
      - intros H. apply mset_In in H as [H|H]; [congruence|]. now apply mdel_In in H.
      - intros H. assert (H' : In (k, y) (mdel "unevaluatedProperties" m)).
        { induction m as [|[k' z] m IH]; cbn [mdel In] in *; auto. destruct H as [H|H].
          - injection H as -> ->. destruct (String.eqb_spec "unevaluatedProperties" k); [congruence|]. now left.
          - destruct (String.eqb "unevaluatedProperties" k'); auto. right; auto. }
        revert H'. generalize (mdel "unevaluatedProperties" m). intros m0 H0.
        induction m0 as [|[k' z] m0 IH]; cbn [mset In] in *; [contradiction|].
        destruct (String.compare "additionalProperties" k') eqn:Hc.
        + apply scmp_eq in Hc. destruct H0 as [H0|H0]; [injection H0 as -> ->; congruence|]. now right.
        + now right.
        + destruct H0 as [H0|H0]; [now left|]. right; auto. }
    intros x. split; intros [k y Hk Hin Hs|k l y Hk Hin Hl Hs].
    - eapply ip_one; [exact Hk| |exact Hs]. apply HIn; auto; intros ->; cbn in Hk; intuition discriminate.
    - eapply ip_list; [exact Hk| |exact Hl|exact Hs]. apply HIn; auto; intros ->; cbn in Hk; intuition discriminate.
    - eapply ip_one; [exact Hk| |exact Hs]. apply HIn; auto; intros ->; cbn in Hk; intuition discriminate.
    - eapply ip_list; [exact Hk| |exact Hl|exact Hs]. apply HIn; auto; intros ->; cbn in Hk; intuition discriminate. }
  assert (HM : forall n, mentions (JObj m1) n <-> mentions (JObj m) n).
  { intros n. split; intros H; inversion H as [m' p n' Hp Hn|m' x n' Hx Hn]; subst.
    - eapply me_here; [rewrite <- Hp1; exact Hp|auto].
    - eapply me_below; [apply HIP; exact Hx|auto].
    - eapply me_here; [rewrite Hp1; exact Hp|auto].
    - eapply me_below; [apply HIP; exact Hx|auto]. }
  assert (HG : forall n, mem n (gather_names (JObj m1)) = true <-> mentions (JObj m) n).
  { intros n. rewrite mem_In, gather_mentions. apply HM. }
  rewrite Hp1.
  assert (HK : forall p', (forall n, mget n p' = match mget n (props_of m) with Some x => Some x
                 | None => if mem n (gather_names (JObj m1)) then Some (JBool true) else None end) ->
    forall n y, mget n p' = Some y <-> mget n (props_of m) = Some y
                \/ (mget n (props_of m) = None /\ mentions (JObj m) n /\ y = JBool true)).
  { intros p' Hp' n y. rewrite Hp'. destruct (mget n (props_of m)) as [x|].
    - split; [left; auto|]. intros [H|(H & _)]; [auto|discriminate].
    - specialize (HG n). destruct (mem n (gather_names (JObj m1))).
      + split; [intros [= <-]; right; intuition|]. intros [H|(_ & _ & ->)]; [discriminate|auto].
      + split; [discriminate|]. intros [H|(_ & H & _)]; [discriminate|]. apply HG in H. discriminate. }
  assert (HS : forall p', same_but ["unevaluatedProperties"; "additionalProperties"; "properties"] m
                           (mset "properties" p' m1)).
  { intros p' k Hk. rewrite mget_mset, (eqb_ne k "properties") by (cbn in Hk; intuition). now apply HF. }
  destruct (gather_names (JObj m1)) as [|n0 ns] eqn:Hns.
  - exists m1. split; auto. right. exists u. repeat (split; [assumption|]). right.
    intros n y. unfold props_of at 1. rewrite Hp1. fold (props_of m).
    apply HK. intros n'. cbn. now destruct (mget n' (props_of m)).
  - destruct (mget "properties" m) as [x|] eqn:Hp.
    + destruct x as [| | | | |p]; try (exists m1; split; [reflexivity|]; right; exists u;
        repeat (split; [assumption|]); left; eexists; (split; [first [exact Hp|reflexivity]|]); (split; [reflexivity|exact Hp1])).
      eexists. split; [reflexivity|]. right. exists u. split; [assumption|]. split; [apply HS|].
      rewrite !mget_mset. cbn [String.eqb Ascii.eqb Bool.eqb]. split; [assumption|]. split; [assumption|].
      right. unfold props_of at 1. rewrite mget_mset_eq. apply HK. intros n. rewrite or_insert_get.
      unfold props_of. rewrite Hp. reflexivity.
    + eexists. split; [reflexivity|]. right. exists u. split; [assumption|]. split; [apply HS|].
      rewrite !mget_mset. cbn [String.eqb Ascii.eqb Bool.eqb]. split; [assumption|]. split; [assumption|].
      right. unfold props_of at 1. rewrite mget_mset_eq. apply HK. intros n. rewrite or_insert_get.
      unfold props_of. rewrite Hp. reflexivity.
Qed.

Lemma nullable_here_step rm ac m : exists m', add_nullable_here rm ac (JObj m) = JObj m'
  /\ nullable_step rm ac m m'.
Proof.
  cbn [add_nullable_here]. destruct (has_type "null" (JObj m)) eqn:HT.
  2:{ exists m. split; auto. left. split; auto. intros H. apply has_type_null in H. congruence. }
  apply has_type_null in HT. assert (HN : null_typed m) by exact HT.
  set (m1 := mset "nullable" (JBool true) m).
  assert (Ht : mget "type" m1 = mget "type" m) by (unfold m1; now rewrite mget_mset).
  rewrite Ht. unfold nullable_step.
  assert (HF1 : forall t, other_types m = t -> True) by auto.
  destruct HT as [Hs|(l & Hl & Hin)].
  - rewrite Hs. assert (HO : other_types m = []) by (unfold other_types; now rewrite Hs). rewrite HO.
    destruct ac, rm; eexists; (split; [reflexivity|]); right; (split; [exact HN|]); unfold m1;
      (split; [frame|]); lk; auto.
  - rewrite Hl. assert (HO : other_types m = filter (fun t => negb (is_null_name t)) l)
      by (unfold other_types; now rewrite Hl).
    destruct (forallb is_null_name l) eqn:Hall.
    + assert (HE : other_types m = []).
      { rewrite HO. clear -Hall. induction l as [|x l IH]; cbn in *; auto.
        apply andb_true_iff in Hall as [-> Hall]. cbn. auto. }
      rewrite HE. destruct ac, rm; eexists; (split; [reflexivity|]); right; (split; [exact HN|]); unfold m1;
      (split; [frame|]); lk; auto.
    + assert (HE : other_types m <> []).
      { rewrite HO. clear -Hall. induction l as [|x l IH]; cbn in *; [discriminate|].
        destruct (is_null_name x); cbn; [auto|discriminate]. }
      assert (HAC : (if ac then match other_types m with [] => Some JNull | _ => mget "const" m end
                     else mget "const" m) = mget "const" m).
      { destruct ac; auto. destruct (other_types m); [congruence|auto]. }
      rewrite HAC. rewrite HO in *.
      destruct rm; [|eexists; (split; [reflexivity|]); right; (split; [exact HN|]); unfold m1;
        (split; [frame|]); rewrite ?mget_mset; cbn [String.eqb Ascii.eqb Bool.eqb]; auto].
      destruct (filter (fun t => negb (is_null_name t)) l) as [|t1 [|t2 ts]]; [congruence| |];
        eexists; (split; [reflexivity|]); right; (split; [exact HN|]); unfold m1;
        (split; [frame|]); rewrite ?mget_mset; cbn [String.eqb Ascii.eqb Bool.eqb];
        rewrite ?mget_mset; cbn [String.eqb Ascii.eqb Bool.eqb]; auto.
Qed.

Lemma nullable_frame rm ac s : top_down (nullable_step rm ac) s (add_nullable rm ac s).
Proof.
  revert s. refine (direct_ind _ _ _).
  - intros s Hs. rewrite add_nullable_unfold. destruct s; try discriminate Hs; now apply td_leaf.
  - intros m IH. rewrite add_nullable_unfold.
    destruct (nullable_here_step rm ac m) as (m' & Hm' & HS).
    destruct (add_nullable_here_obj rm ac m) as (mh & Hh & HD & _).
    rewrite Hm' in Hh. injection Hh as <-. rewrite Hm'.
    change (top_down (nullable_step rm ac) (JObj m) (JObj (tmap (add_nullable rm ac) m'))).
    eapply td_obj; [exact HS|]. apply tmap_inside. auto.
Qed.

Lemma bool_frame skip s : is_schema s = true -> no_bools skip s (replace_bool skip s).
Proof.
  revert s. refine (direct_ind _ _ _).
  - intros s Hs Hsc. rewrite replace_bool_unfold. destruct s as [|[]| | | |]; try discriminate; constructor.
  - intros m IH _. rewrite replace_bool_unfold. unfold replace_bool_body.
    assert (HR : forall x, direct_sub m x -> no_bools skip x (replace_bool skip x)).
    { intros x Hx. apply IH; auto. destruct Hx; auto. }
    assert (HB : forall k x, mget k m = Some x ->
      below (no_bools skip) k x (sub_value_p (replace_bool skip) (shape_of k) x)).
    { intros k x Hx. apply sub_value_below. intros y Hy. apply HR. eapply direct_In; [|exact Hy].
      now apply mget_In. }
    assert (HP : forall m', (forall k, k <> "additionalProperties" \/ skip = false -> mget k m' =
       option_map (sub_value_p (replace_bool skip) (shape_of k)) (mget k m)) ->
       (skip = true -> mget "additionalProperties" m' = mget "additionalProperties" m) ->
       no_bools skip (JObj m) (JObj m')).
    { intros m' H1 H2. apply nb_obj; auto.
      - intros k. unfold mhas. destruct (String.eqb_spec k "additionalProperties") as [->|Hk].
        + destruct skip; [now rewrite H2|]. rewrite H1 by auto. now destruct (mget _ m).
        + rewrite (H1 k (or_introl Hk)). destruct (mget k m); reflexivity.
      - intros k x y Hk Hx Hy. rewrite (H1 k Hk), Hx in Hy. cbn [option_map] in Hy.
        injection Hy as <-. auto. }
    destruct skip.
    + destruct (mget "additionalProperties" m) as [ap|] eqn:Ha.
      * change (no_bools true (JObj m) (JObj (mset "additionalProperties" ap
                 (tmap (replace_bool true) (mdel "additionalProperties" m))))).
        apply HP.
        -- intros k [Hk|?]; [|discriminate]. rewrite mget_mset, (eqb_ne _ _ Hk), mget_tmap, mget_mdel, (eqb_ne _ _ Hk).
           reflexivity.
        -- intros _. now rewrite mget_mset_eq.
      * change (no_bools true (JObj m) (JObj (tmap (replace_bool true) m))). apply HP.
        -- intros k _. now rewrite mget_tmap.
        -- intros _. rewrite mget_tmap, Ha. reflexivity.
    + change (no_bools false (JObj m) (JObj (tmap (replace_bool false) m))). apply HP.
      * intros k _. now rewrite mget_tmap.
      * discriminate.
Qed.

Lemma formats_frame infer allowed s : forall c, restricted infer allowed c s (RF infer allowed c s).
Proof.
  revert s. refine (direct_ind _ _ _).
  - intros s Hs c. rewrite RF_leaf by auto. now apply rs_leaf.
  - intros m IH c. rewrite RF_obj. destruct (next_ctx infer c m) as [c1|] eqn:Hc; [|now apply rs_unknown].
    apply (rs_obj infer allowed c m c1 (strip allowed c1 m)); auto.
    + unfold strip. destruct (mget "format" m) as [[]|]; try (intros k Hk; reflexivity).
      destruct (permitted allowed c1 s); [intros k Hk; reflexivity|]. frame.
    + unfold strip. destruct (mget "format" m) as [[]|] eqn:Hf; auto.
      destruct (permitted allowed c1 s); auto. now rewrite mget_mdel.
    + apply tmap_inside. intros x Hx. apply IH.
      unfold strip in Hx. destruct (mget "format" m) as [[]|]; auto.
      destruct (permitted allowed c1 s); auto. eapply direct_mdel; exact Hx.
Qed.
