(** Lookups in schemas that the transforms of the ready-made settings do not change. *)
From Coq Require Import String Ascii List ZArith Bool Lia.
From Verif Require Import Json JsonFacts SchemaApi Transform TransformProofs TransformSem TransformNullable TransformUneval TransformPipe.
Import ListNotations.
Open Scope string_scope.
Open Scope list_scope.

(** ** Specification *)
(** A place in a schema: the entry [n] of the object under the keyword [key], or the element [i] of the array under it *)
Inductive step := Entry (key n : string) | Nth (key : string) (i : nat).
Inductive found : list step -> json -> json -> Prop :=
| FHere s : found [] s s
| FEntry key n p m ps sub s : In key ["properties"; "$defs"; "definitions"] -> mget key m = Some (JObj ps) -> mget n ps = Some sub ->
    found p sub s -> found (Entry key n :: p) (JObj m) s
| FNth key i p m l sub s : In key ["oneOf"; "anyOf"] -> mget key m = Some (JArr l) -> nth_error l i = Some sub ->
    found p sub s -> found (Nth key i :: p) (JObj m) s.

(** The keywords that the transforms of the ready-made settings write or remove *)
Definition rewritten : list string :=
  ["$ref"; "allOf"; "example"; "examples"; "const"; "enum"; "type"; "nullable"; "items"; "prefixItems"; "additionalItems";
   "additionalProperties"; "unevaluatedProperties"; "properties"].
(** The keywords with schemas in them, which are transformed too *)
Definition holding_schemas : list string :=
  ["not"; "if"; "then"; "else"; "contains"; "propertyNames"; "anyOf"; "oneOf"; "patternProperties"; "$defs"; "definitions"].

(** ** Proofs *)
Definition kept (m m' : map_t) : Prop :=
  (forall k, ~ In k rewritten -> mget k m' = mget k m)
  /\ (forall ps n sub, mget "properties" m = Some (JObj ps) -> mget n ps = Some sub -> exists ps', mget "properties" m' = Some (JObj ps') /\ mget n ps' = Some sub).
Lemma kept_refl m : kept m m.
Proof. split; eauto. Qed.
Lemma kept_mset k x m m' : In k rewritten -> k <> "properties" -> kept m m' -> kept m (mset k x m').
Proof.
  intros HI HN [H1 H2]. split.
  - intros k' N. rewrite mget_mset. destruct (String.eqb_spec k' k) as [->|]; [contradiction|]. now apply H1.
  - intros ps n sub HP HS. destruct (H2 ps n sub HP HS) as (ps' & A & B). exists ps'. split; [|exact B]. rewrite mget_mset.
    destruct (String.eqb_spec "properties" k) as [<-|]; [contradiction|exact A].
Qed.
Lemma kept_mdel k m m' : In k rewritten -> k <> "properties" -> kept m m' -> kept m (mdel k m').
Proof.
  intros HI HN [H1 H2]. split.
  - intros k' N. rewrite mget_mdel. destruct (String.eqb_spec k' k) as [->|]; [contradiction|]. now apply H1.
  - intros ps n sub HP HS. destruct (H2 ps n sub HP HS) as (ps' & A & B). exists ps'. split; [|exact B]. rewrite mget_mdel.
    destruct (String.eqb_spec "properties" k) as [<-|]; [contradiction|exact A].
Qed.
Ltac rewritten_key := unfold rewritten; repeat (first [left; reflexivity|right]).
Ltac keep := repeat first [apply kept_mset; [rewritten_key|discriminate|]|apply kept_mdel; [rewritten_key|discriminate|]]; exact (kept_refl _).

Definition mild (here : json -> json) : Prop := forall m, exists m', here (JObj m) = JObj m' /\ kept m m'.
Ltac mild_case := eexists; (split; [reflexivity|keep]).

Lemma mild_ref : mild remove_ref_siblings_here.
Proof.
  intros m. unfold remove_ref_siblings_here. destruct (Nat.ltb 1 _); [|mild_case]. destruct (mget "$ref" m); [|mild_case].
  cbv zeta. destruct (mget "allOf" _) as [[| | | |l|]|]; mild_case.
Qed.
Lemma mild_example : mild set_single_example_here.
Proof. intros m. unfold set_single_example_here. destruct (mget "examples" m) as [[| | | |[|x l]|]|]; mild_case. Qed.
Lemma mild_const : mild replace_const_here.
Proof. intros m. unfold replace_const_here. destruct (mget "const" m); mild_case. Qed.
Lemma mild_prefix : mild replace_prefix_here.
Proof. intros m. unfold replace_prefix_here. destruct (mget "prefixItems" m); [|mild_case]. cbv zeta. destruct (mget "items" _); mild_case. Qed.
Lemma mild_nullable rm ac : mild (add_nullable_here rm ac).
Proof.
  intros m. unfold add_nullable_here. destruct (has_type "null" (JObj m)); [|mild_case]. cbv zeta. destruct (mget "type" _) as [ty|]; [|mild_case].
  destruct (match ty with JArr l => forallb is_null_name l | _ => true end).
  - destruct ac; [|destruct rm]; try mild_case. destruct rm; mild_case.
  - destruct rm; [|mild_case]. destruct ty as [| | | |l|]; try mild_case. destruct (filter _ l) as [|x [|y l']]; mild_case.
Qed.
Lemma mild_uneval : mild replace_uneval_here.
Proof.
  intros m. unfold replace_uneval_here. destruct (mget "unevaluatedProperties" m) as [up|]; [|mild_case]. cbv zeta.
  set (m1 := mset "additionalProperties" up (mdel "unevaluatedProperties" m)).
  assert (HK : kept m m1) by (unfold m1; keep).
  destruct (gather_names (JObj m1)) as [|n l] eqn:EG; [exists m1; now split|].
  destruct (mget "properties" m1) as [[| | | | |p]|] eqn:EP; try (exists m1; now split); destruct HK as [K1 K2].
  - exists (mset "properties" (JObj (or_insert_true (n :: l) p)) m1). split; [reflexivity|]. split.
    + intros k N. rewrite mget_mset. destruct (String.eqb_spec k "properties") as [->|]; [elim N; rewritten_key|now apply K1].
    + intros ps n' sub HP HS. destruct (K2 ps n' sub HP HS) as (ps' & A & B). rewrite EP in A. injection A as <-.
      exists (or_insert_true (n :: l) p). split; [now rewrite mget_mset|]. now rewrite or_insert_get, B.
  - exists (mset "properties" (JObj (or_insert_true (n :: l) [])) m1). split; [reflexivity|]. split.
    + intros k N. rewrite mget_mset. destruct (String.eqb_spec k "properties") as [->|]; [elim N; rewritten_key|now apply K1].
    + intros ps n' sub HP HS. destruct (K2 ps n' sub HP HS) as (ps' & A & B). rewrite EP in A. discriminate.
Qed.

(** A transform that treats the values of the other keywords as [transform_subschemas] does *)
Definition gentle (T : json -> json) : Prop := forall m, exists m', T (JObj m) = JObj m'
  /\ (forall k, ~ In k rewritten -> mget k m' = option_map (sub_value_p T (shape_of k)) (mget k m))
  /\ (forall ps n sub, mget "properties" m = Some (JObj ps) -> mget n ps = Some sub ->
       exists ps', mget "properties" m' = Some (JObj ps') /\ mget n ps' = Some (try_sub_p T sub)).

Lemma gentle_tmap T m :
  (forall k, mget k (tmap T m) = option_map (sub_value_p T (shape_of k)) (mget k m))
  /\ (forall ps n sub, mget "properties" m = Some (JObj ps) -> mget n ps = Some sub ->
       exists ps', mget "properties" (tmap T m) = Some (JObj ps') /\ mget n ps' = Some (try_sub_p T sub)).
Proof.
  split.
  - intros k. apply mget_tmap.
  - intros ps n sub HP HS. exists (map (fun kv => (fst kv, try_sub_p T (snd kv))) ps). split; [now rewrite mget_tmap, HP|].
    now rewrite (mget_map (fun _ => try_sub_p T)), HS.
Qed.
Lemma gentle_post here : mild here -> gentle (post here).
Proof.
  intros HM m. rewrite post_obj. destruct (HM (tmap (post here) m)) as (m' & -> & K1 & K2). exists m'. split; [reflexivity|].
  destruct (gentle_tmap (post here) m) as [G1 G2]. split.
  - intros k N. rewrite K1 by exact N. apply G1.
  - intros ps n sub HP HS. destruct (G2 ps n sub HP HS) as (ps' & A & B). exact (K2 ps' n _ A B).
Qed.
Lemma gentle_nullable rm ac : gentle (add_nullable rm ac).
Proof.
  intros m. rewrite add_nullable_unfold. destruct (mild_nullable rm ac m) as (m' & -> & K1 & K2). exists (tmap (add_nullable rm ac) m'). split; [reflexivity|].
  destruct (gentle_tmap (add_nullable rm ac) m') as [G1 G2]. split.
  - intros k N. rewrite <- K1 by exact N. apply G1.
  - intros ps n sub HP HS. destruct (K2 ps n sub HP HS) as (ps' & A & B). exact (G2 ps' n sub A B).
Qed.
Lemma gentle_bool skip : gentle (replace_bool skip).
Proof.
  intros m. rewrite replace_bool_unfold. unfold replace_bool_body. destruct (if skip then _ else _) as [ap|].
  - set (m1 := mdel "additionalProperties" m). assert (HK : kept m m1) by (unfold m1; keep). destruct HK as [K1 K2].
    assert (HK' : kept (tmap (replace_bool skip) m1) (mset "additionalProperties" ap (tmap (replace_bool skip) m1))) by keep. destruct HK' as [K1' K2'].
    change (transform_subschemas (replace_bool skip) (JObj m1)) with (JObj (tmap (replace_bool skip) m1)).
    eexists. split; [reflexivity|]. destruct (gentle_tmap (replace_bool skip) m1) as [G1 G2]. split.
    + intros k N. rewrite K1' by exact N. rewrite <- K1 by exact N. apply G1.
    + intros ps n sub HP HS. destruct (K2 ps n sub HP HS) as (ps' & A & B). destruct (G2 ps' n sub A B) as (ps2 & A2 & B2). exact (K2' _ _ _ A2 B2).
  - exists (tmap (replace_bool skip) m). split; [reflexivity|]. destruct (gentle_tmap (replace_bool skip) m) as [G1 G2]. split; auto.
Qed.

(** Every place that holds an object keeps it, transformed. *)
Lemma found_gentle T : gentle T -> forall p s m, found p s (JObj m) -> found p (T s) (T (JObj m)).
Proof.
  intros HG p s m H. remember (JObj m) as z eqn:EZ. revert m EZ.
  assert (HO : forall p x y, found p x y -> is_obj y = true -> is_schema x = true) by (intros p' x y HF HY; inversion HF; subst; [destruct y; auto; discriminate|reflexivity|reflexivity]).
  induction H as [s|key n p m ps sub s HI HM HN HF IH|key i p m l sub s HI HM HN HF IH]; intros mz ->.
  - constructor.
  - specialize (IH _ eq_refl). pose proof (HO _ _ _ HF eq_refl) as HSc. destruct (HG m) as (m' & -> & G1 & G2).
    assert (HE : exists ps', mget key m' = Some (JObj ps') /\ mget n ps' = Some (T sub)).
    { destruct HI as [<-|HI].
      - destruct (G2 ps n sub HM HN) as (ps' & A & B). exists ps'. split; [exact A|]. unfold try_sub_p in B. now rewrite HSc in B.
      - exists (map (fun kv => (fst kv, try_sub_p T (snd kv))) ps). split.
        + destruct HI as [<-|[<-|[]]]; (rewrite G1, HM; [reflexivity|]); intros N; cbn in N; intuition discriminate.
        + rewrite (mget_map (fun _ => try_sub_p T)), HN. cbn [option_map]. unfold try_sub_p. now rewrite HSc. }
    destruct HE as (ps' & A & B). eapply FEntry; eauto.
  - specialize (IH _ eq_refl). pose proof (HO _ _ _ HF eq_refl) as HSc. destruct (HG m) as (m' & -> & G1 & G2).
    apply (FNth key i p m' (map (try_sub_p T) l) (T sub)); auto.
    + destruct HI as [<-|[<-|[]]]; (rewrite G1, HM; [reflexivity|]); intros N; cbn in N; intuition discriminate.
    + rewrite nth_error_map, HN. cbn [option_map]. unfold try_sub_p. now rewrite HSc.
Qed.
Lemma get_gentle T k m : gentle T -> ~ In k (rewritten ++ holding_schemas) -> s_get k (T (JObj m)) = mget k m.
Proof.
  intros HG HN. destruct (HG m) as (m' & -> & G1 & _). cbn [s_get].
  rewrite in_app_iff in HN. rewrite G1 by tauto. assert (HS : shape_of k = Other).
  { unfold shape_of, mem. destruct (existsb _ one_keys) eqn:E1; [|destruct (existsb _ many_keys) eqn:E2; [|destruct (String.eqb_spec k "items") as [->|]; [|destruct (existsb _ named_keys) eqn:E3; [|reflexivity]]]]; exfalso; apply HN.
    - apply existsb_exists in E1 as (y & Hy & E). apply String.eqb_eq in E. subst y. cbn in Hy |- *. tauto.
    - apply existsb_exists in E2 as (y & Hy & E). apply String.eqb_eq in E. subst y. cbn in Hy |- *. tauto.
    - cbn. tauto.
    - apply existsb_exists in E3 as (y & Hy & E). apply String.eqb_eq in E. subst y. cbn in Hy |- *. tauto. }
  rewrite HS. now destruct (mget k m) as [[]|].
Qed.

(** What a list of transforms keeps *)
Definition carries (T : json -> json) : Prop := forall p s sub, found p s sub -> is_obj sub = true ->
  exists sub', found p (T s) sub' /\ is_obj sub' = true /\ forall k, ~ In k (rewritten ++ holding_schemas) -> s_get k sub' = s_get k sub.
Lemma gentle_carries T : gentle T -> carries T.
Proof.
  intros HG p s sub HF HO. exists (T sub). destruct sub as [| | | | |m]; try discriminate HO. split; [now apply found_gentle|]. split.
  - destruct (HG m) as (m' & -> & _). reflexivity.
  - intros k HN. now apply get_gentle.
Qed.
Lemma carries_comp T U : carries T -> carries U -> carries (fun s => U (T s)).
Proof.
  intros HT HU p s sub HF HO. destruct (HT p s sub HF HO) as (s1 & H1 & H2 & H3). destruct (HU p _ s1 H1 H2) as (s2 & H4 & H5 & H6).
  exists s2. split; [exact H4|]. split; [exact H5|]. intros k HN. now rewrite H6, H3.
Qed.
