(** Structs with named fields: the schema built by [struct_prog] accepts the entries serde writes. *)
From Coq Require Import String Ascii List ZArith Bool Lia.
From Verif Require Import Json JsonFacts Utf8 SchemaApi Transform Validate ValidateFacts ValidateKw Pointer Private PrivateProps
  PrivateNull PrivateTag ShapeFacts PrivateFlatten PrivateForFlatten Generate SerValue SerValueProofs Types TypesShape
  Serde SerdeFacts Derivation Properties_Types SoundBase.
Import ListNotations.
Open Scope string_scope.
Open Scope list_scope.

Section StructSound.
Variable items : nat -> item rval.
Variable text_ok : checks.
Notation ser_fields := (Serde.ser_fields text_ok).
Notation ser_field := (Serde.ser_field text_ok).
Notation ser_struct := (Serde.ser_struct text_ok).
Variable E : env.
Hypothesis format_null : forall f, e_fmt E f JNull = true.
Variable tok : string.
Hypothesis tok_fresh : ~ In tok used.
Notation ok_ := (valid D2020 E).
Notation ser_ := (ser items text_ok true).
Notation safe := (safe E tok).
Notation wf_meta := (wf_meta tok).

(** ** Names *)
(** The names a struct's fields have in JSON, those of flattened structs and enums included: of an
    enum, its variants, or its tag and the names of the variants' content *)
Inductive declares : rty -> string -> Prop :=
| DeclField n cs ts def fs f k :
    d_data (it_decl (items n) cs ts) = DStruct def (Struct fs) -> In f fs -> f_skip_ser f = false ->
    field_declares f k -> declares (TAdt n cs ts) k
| DeclVariant n cs ts vs w :
    d_data (it_decl (items n) cs ts) = DEnum External vs -> In w vs -> v_skip_ser w = false -> declares (TAdt n cs ts) (v_ser w)
| DeclTag n cs ts tag vs : d_data (it_decl (items n) cs ts) = DEnum (Internal tag) vs -> declares (TAdt n cs ts) tag
| DeclVariantField n cs ts tag vs w fs f k :
    d_data (it_decl (items n) cs ts) = DEnum (Internal tag) vs -> In w vs -> v_skip_ser w = false -> v_style w = Struct fs ->
    In f fs -> f_skip_ser f = false -> field_declares f k -> declares (TAdt n cs ts) k
| DeclAdjacent n cs ts tag content vs k :
    d_data (it_decl (items n) cs ts) = DEnum (Adjacent tag content) vs -> In k [tag; content] -> declares (TAdt n cs ts) k
with field_declares : field rval -> string -> Prop :=
| FieldName f : f_flatten f = false -> field_declares f (f_ser f)
| FieldFlat f k : f_flatten f = true -> declares (strip_option (f_ty f)) k -> field_declares f k.

(** A flattened map, a flattened enum; a struct without either *)
Definition map_field (f : field rval) : bool := negb (f_skip_ser f) && f_flatten f && flat_map_ty f.
Definition enum_ty (t : rty) : bool :=
  match t with TAdt n cs ts => match d_data (it_decl (items n) cs ts) with DEnum _ _ => true | _ => false end | _ => false end.
Definition enum_field (f : field rval) : bool := negb (f_skip_ser f) && f_flatten f && enum_ty (strip_option (f_ty f)).
Definition open_field (f : field rval) : bool := map_field f || enum_field f.
Definition closed_fields (fs : list (field rval)) : Prop := forall f, In f fs -> open_field f = false.
Definition no_maps (fs : list (field rval)) : Prop := forall f, In f fs -> map_field f = false.
Definition no_enums (fs : list (field rval)) : Prop := forall f, In f fs -> enum_field f = false.
Lemma closed_no_maps fs : closed_fields fs -> no_maps fs.
Proof. intros H f Hf. specialize (H f Hf). unfold open_field in H. now apply orb_false_iff in H. Qed.
Lemma closed_no_enums fs : closed_fields fs -> no_enums fs.
Proof. intros H f Hf. specialize (H f Hf). unfold open_field in H. now apply orb_false_iff in H. Qed.

Definition is_struct (t : rty) : Prop :=
  exists n cs ts def fs, t = TAdt n cs ts /\ d_data (it_decl (items n) cs ts) = DStruct def (Struct fs) /\ closed_fields fs.

(** An enum that can be flattened. Its unit variants have no attributes, since the schemas of others
    describe strings; internally tagged variants are units or have named fields. *)
Definition flat_enum (tg : tagging) (vs : list (variant rval)) : Prop :=
  tg <> Untagged /\ (forall w, In w vs -> v_untagged w = false) /\
  forall w, In w vs -> v_skip_ser w = false ->
    match tg with
    | External => v_style w = Unit -> v_meta w = []
    | Internal _ => match v_style w with Unit => True | Struct fs => closed_fields fs | _ => False end
    | Adjacent _ _ | Untagged => True
    end.
Definition is_flat_enum (t : rty) : Prop :=
  exists n cs ts tg vs, t = TAdt n cs ts /\ d_data (it_decl (items n) cs ts) = DEnum tg vs /\ flat_enum tg vs.
(** A map whose keys are strings *)
Definition is_string_map (t : rty) : Prop := exists v, t = TMap TStr v.

(** Under the contract [c] the field is described as it is written: for the deserialize contract, it
    has the same name in both directions, is skipped in both or none, and can be missing when it is
    read if it can be left out when it is written. *)
Record as_written (c : contract) (def : bool) (f : field rval) : Prop := {
  aw_name : c = Deserialize -> f_de f = f_ser f;
  aw_skip : c = Deserialize -> f_skip_de f = f_skip_ser f;
  aw_missing : c = Deserialize -> f_flatten f = false -> f_skip_if f <> None ->
    def = true \/ f_default f = true \/ (is_option (f_ty f) = true /\ f_required f = false) }.

(** What is asked of the fields of a struct or struct variant ([def]: the struct has a default) *)
Record wf_fields (c : contract) (def : bool) (fs : list (field rval)) : Prop := {
  wff_written : forall f, In f fs -> as_written c def f;
  wff_meta : forall f, In f fs -> wf_meta (f_meta f);
  wff_flat : forall f, In f fs -> f_skip_ser f = false -> f_flatten f = true ->
    is_string_map (strip_option (f_ty f))
    \/ (is_struct (strip_option (f_ty f)) \/ is_flat_enum (strip_option (f_ty f))) /\ (f_skip_if f <> None -> is_option (f_ty f) = true /\ f_required f = false);
  (* next to a flattened map, nothing else is flattened *)
  wff_open : ForallOrdPairs (fun f g => f_skip_ser f = false -> f_skip_ser g = false -> f_flatten f = true -> f_flatten g = true ->
    map_field f = false /\ map_field g = false) fs;
  wff_names : ForallOrdPairs (fun f g => f_skip_ser f = false -> f_skip_ser g = false ->
    forall k, field_declares f k -> ~ field_declares g k) fs }.

Lemma written_name c def f : as_written c def f -> name_for c (f_ser f) (f_de f) = f_ser f.
Proof. intros [H _ _]. destruct c; cbn; auto. Qed.
Lemma written_included c def f : as_written c def f -> included (f_skip_de f) (f_skip_ser f) c = negb (f_skip_ser f).
Proof. intros [_ H _]. destruct c; cbn; auto. now rewrite H. Qed.
Lemma written_missing c def f : as_written c def f -> f_flatten f = false -> f_skip_if f <> None -> is_optional def c f = true.
Proof.
  intros [_ _ H] HF HN. unfold is_optional. destruct (f_skip_if f) eqn:ES; [|congruence]. cbn [andb negb].
  destruct (def || f_default f) eqn:ED; [reflexivity|]. apply orb_false_iff in ED as [E1 E2].
  destruct c; [|reflexivity]. destruct H as [HH|[HH|[-> ->]]]; auto; congruence.
Qed.

(** ** Values *)
Definition parts (l : list rval) : list part := map (fun x => (x, ser_ x)) l.

Section Reserved.
Variable rn : list string.   (* the names of the struct's fields *)

Definition fields_json (fs : list (field rval)) (l : list rval) : option (list (string * json)) :=
  match ser_fields true rn fs (parts l) with Some es => omap entry_json es | None => None end.

Lemma ser_fields_app (a b : list (field rval)) : forall l es, ser_fields true rn (a ++ b) (parts l) = Some es ->
  exists l1 l2 e1 e2, l = l1 ++ l2 /\ ser_fields true rn a (parts l1) = Some e1 /\ ser_fields true rn b (parts l2) = Some e2
    /\ es = e1 ++ e2.
Proof.
  induction a as [|f a IH]; intros l es H.
  - exists [], l, [], es. auto.
  - destruct l as [|x l]; [discriminate|]. cbn [parts map app Serde.ser_fields] in H.
    fold (parts l) in H. destruct (ser_fields true rn (a ++ b) (parts l)) as [rest|] eqn:ER; [|discriminate].
    destruct (IH l rest ER) as (l1 & l2 & e1 & e2 & -> & H1 & H2 & ->).
    assert (HX : exists e0, ser_fields true rn (f :: a) (parts (x :: l1)) = Some (e0 ++ e1) /\ es = e0 ++ e1 ++ e2).
    { cbn [parts map Serde.ser_fields]. fold (parts l1). rewrite H1. cbn [fst] in *.
      destruct (f_skip_ser f || skip_now f x); [exists []; split; [reflexivity|now injection H as <-]|].
      destruct (ser_field true f _); [|discriminate]. destruct (f_flatten f).
      - destruct (flat_entries s) as [e|]; [|discriminate]. destruct (clashes true rn f e); [discriminate|].
        exists e. split; [reflexivity|]. now injection H as <-.
      - exists [(f_ser f, s)]. split; [reflexivity|]. now injection H as <-. }
    destruct HX as (e0 & HX & ->). exists (x :: l1), l2, (e0 ++ e1), e2. rewrite app_assoc. auto.
Qed.

Lemma fields_json_app (a b : list (field rval)) l es : fields_json (a ++ b) l = Some es ->
  exists l1 l2 e1 e2, l = l1 ++ l2 /\ fields_json a l1 = Some e1 /\ fields_json b l2 = Some e2 /\ es = e1 ++ e2.
Proof.
  unfold fields_json. destruct (ser_fields true rn (a ++ b) (parts l)) as [e|] eqn:EF; [|discriminate]. intros H.
  destruct (ser_fields_app a b l e EF) as (l1 & l2 & e1 & e2 & -> & H1 & H2 & ->). rewrite omap_app in H.
  destruct (omap entry_json e1) as [j1|] eqn:J1; [|discriminate]. destruct (omap entry_json e2) as [j2|] eqn:J2; [|discriminate].
  injection H as <-. exists l1, l2, j1, j2. rewrite H1, H2. auto.
Qed.

Lemma NoDup_app_intro {A} (a b : list A) : NoDup a -> NoDup b -> (forall x, In x a -> In x b -> False) -> NoDup (a ++ b).
Proof.
  intros Ha Hb H. induction Ha as [|x a Hx Ha IH]; [exact Hb|]. cbn. constructor.
  - rewrite in_app_iff. intros [HI|HI]; [contradiction|]. apply (H x); [now left|exact HI].
  - apply IH. intros y Hy. apply H. now right.
Qed.

(** ** Entries that fit declared properties and required names *)
Record fits (p : map_t) (r : list json) (es : list (string * json)) : Prop := {
  ft_nodup : NoDup (map fst es);
  ft_known : forall k, In k (map fst es) -> mget k p <> None;
  ft_ok : forall k s x, mget k p = Some s -> mget k es = Some x -> ok_ s x = true;
  ft_req : forall k, In (JStr k) r -> mget k es <> None }.

Lemma mget_app {A} k (a b : list (string * A)) : mget k (a ++ b) = match mget k a with Some x => Some x | None => mget k b end.
Proof. induction a as [|[k' x] a IH]; [reflexivity|]. cbn. destruct (String.eqb k k'); auto. Qed.

Lemma fits_lookup p p' r r' es : (forall k, mget k p = mget k p') -> (forall k, In (JStr k) r' -> In (JStr k) r) ->
  fits p r es -> fits p' r' es.
Proof.
  intros HP HR [H1 H2 H3 H4]. split; auto.
  - intros k Hk. rewrite <- HP. auto.
  - intros k s x Hs. rewrite <- HP in Hs. eauto.
Qed.

Lemma fits_app p1 p2 r1 r2 e1 e2 : fits p1 r1 e1 -> fits p2 r2 e2 ->
  sorted_keys (map fst p2) = true ->
  (forall k, mget k p1 <> None -> mget k p2 <> None -> False) ->
  fits (mappend p1 p2) (r1 ++ r2) (e1 ++ e2).
Proof.
  intros [A1 A2 A3 A4] [B1 B2 B3 B4] S2 HD.
  assert (HG : forall k, mget k (mappend p1 p2) = match mget k p2 with Some s => Some s | None => mget k p1 end).
  { intros k. apply mget_mappend_NoDup. now apply sorted_NoDup. }
  split.
  - rewrite map_app. apply NoDup_app_intro; auto. intros k H1 H2. exact (HD k (A2 k H1) (B2 k H2)).
  - intros k Hk. rewrite HG. rewrite map_app in Hk. apply in_app_or in Hk as [Hk|Hk].
    + destruct (mget k p2); [discriminate|]. now apply A2.
    + specialize (B2 k Hk). now destruct (mget k p2).
  - intros k s x Hs Hx. rewrite HG in Hs. rewrite mget_app in Hx. destruct (mget k e1) as [x1|] eqn:X1.
    + injection Hx as <-. assert (HK : mget k p1 <> None) by (apply A2, mhas_In; congruence).
      destruct (mget k p2) eqn:P2; [exfalso; apply (HD k HK); congruence|]. eauto.
    + assert (HK : mget k p2 <> None) by (apply B2, mhas_In; congruence).
      destruct (mget k p2) as [s2|] eqn:P2; [|congruence]. injection Hs as <-. eauto.
  - intros k Hk. rewrite mget_app. apply in_app_or in Hk as [Hk|Hk].
    + specialize (A4 k Hk). now destruct (mget k e1).
    + specialize (B4 k Hk). now destruct (mget k e1).
Qed.

(** The same for entries of which those without a declared property have values described by [a],
    and are not named like a field *)
Record suits (p : map_t) (r : list json) (a : option json) (es : list (string * json)) : Prop := {
  sui_ok : forall k s x, mget k p = Some s -> In (k, x) es -> ok_ s x = true;
  sui_rest : forall k x, In (k, x) es -> mget k p = None -> ~ In k rn /\ exists s, a = Some s /\ ok_ s x = true;
  sui_req : forall k, In (JStr k) r -> mget k es <> None;
  sui_nodup : a = None -> NoDup (map fst es) }.

Lemma suits_fits p r es : suits p r None es -> fits p r es.
Proof.
  intros [H1 H2 H3 H4]. split; auto.
  - intros k Hk HN. apply in_map_iff in Hk as ([k' x] & <- & Hx). destruct (H2 _ _ Hx HN) as (_ & s & HS & _). discriminate.
  - intros k s x Hs Hx. apply (H1 k s x Hs). now apply mget_In.
Qed.
Lemma fits_suits p r es : fits p r es -> suits p r None es.
Proof.
  intros [H1 H2 H3 H4]. split; auto.
  - intros k s x Hs Hx. apply (H3 k s x Hs). now apply NoDup_mget.
  - intros k x Hx HN. exfalso. apply (H2 k); [|exact HN]. apply in_map_iff. now exists (k, x).
Qed.
Lemma suits_lookup p p' r r' a es : (forall k, mget k p = mget k p') -> (forall k, In (JStr k) r' -> In (JStr k) r) ->
  suits p r a es -> suits p' r' a es.
Proof.
  intros HP HR [H1 H2 H3 H4]. split; auto.
  - intros k s x Hs. rewrite <- HP in Hs. eauto.
  - intros k x Hx HN. rewrite <- HP in HN. auto.
Qed.

Definition either (a b : option json) : option json := match a with Some x => Some x | None => b end.
Lemma suits_app p1 p2 r1 r2 a1 a2 e1 e2 : suits p1 r1 a1 e1 -> suits p2 r2 a2 e2 ->
  sorted_keys (map fst p2) = true ->
  (forall k, mget k p1 <> None -> mget k p2 <> None -> False) ->
  (a1 <> None -> forall k, mget k p2 <> None -> In k rn) -> (a2 <> None -> forall k, mget k p1 <> None -> In k rn) ->
  a1 = None \/ a2 = None ->
  suits (mappend p1 p2) (r1 ++ r2) (either a1 a2) (e1 ++ e2).
Proof.
  intros SA SB S2 HD N2 N1 HO. pose proof SA as [A1 A2 A3 A4]. pose proof SB as [B1 B2 B3 B4].
  assert (HG : forall k, mget k (mappend p1 p2) = match mget k p2 with Some s => Some s | None => mget k p1 end).
  { intros k. apply mget_mappend_NoDup. now apply sorted_NoDup. }
  assert (AN : forall k x, In (k, x) e1 -> mget k p2 = None \/ mget k p1 <> None).
  { intros k x Hx. destruct (mget k p1) eqn:P1; [right; discriminate|left]. destruct (A2 k x Hx P1) as (HN & s & HS & _).
    destruct (mget k p2) eqn:P2; [|reflexivity]. exfalso. apply HN, N2; congruence. }
  assert (BN : forall k x, In (k, x) e2 -> mget k p1 = None \/ mget k p2 <> None).
  { intros k x Hx. destruct (mget k p2) eqn:P2; [right; discriminate|left]. destruct (B2 k x Hx P2) as (HN & s & HS & _).
    destruct (mget k p1) eqn:P1; [|reflexivity]. exfalso. apply HN, N1; congruence. }
  split.
  - intros k s x Hs Hx. rewrite HG in Hs. apply in_app_iff in Hx as [Hx|Hx].
    + destruct (mget k p2) eqn:P2; [|eauto]. destruct (AN k x Hx) as [HH|HH]; [congruence|]. exfalso. apply (HD k HH). congruence.
    + destruct (mget k p2) eqn:P2; [injection Hs as <-; eauto|]. destruct (BN k x Hx); congruence.
  - intros k x Hx HN. rewrite HG in HN. destruct (mget k p2) eqn:P2; [discriminate|]. apply in_app_iff in Hx as [Hx|Hx].
    + destruct (A2 k x Hx HN) as (G1 & s & -> & G2). split; [exact G1|]. exists s. now split.
    + destruct (B2 k x Hx P2) as (G1 & s & -> & G2). split; [exact G1|]. exists s. split; [|exact G2]. destruct HO as [->|HO]; [reflexivity|discriminate].
  - intros k Hk. rewrite mget_app. apply in_app_or in Hk as [Hk|Hk].
    + specialize (A3 k Hk). now destruct (mget k e1).
    + specialize (B3 k Hk). now destruct (mget k e1).
  - intros HE. destruct a1; [discriminate|]. cbn in HE. subst a2. rewrite map_app. apply NoDup_app_intro; auto.
    apply suits_fits in SA, SB. intros k H1 H2. exact (HD k (ft_known _ _ _ SA k H1) (ft_known _ _ _ SB k H2)).
Qed.

(** ** The accumulated schema *)
(** What describes the entries that no property declares *)
Definition rest_of (deny : bool) (m : map_t) : option json := if deny then None else mget "additionalProperties" m.

Record st (n : nat) (fs : list (field rval)) (deny : bool) (m : map_t) : Prop := {
  st_shape : object_shape m;
  st_type : mget "type" m = Some (JStr "object");
  st_then : mget "then" m = None;
  st_else : mget "else" m = None;
  st_sorted : sorted_keys (map fst m) = true;
  st_psorted : sorted_keys (map fst (props_of m)) = true;
  st_add : if deny then mget "additionalProperties" m = Some (JBool false)
           else no_maps fs -> mget "additionalProperties" m = None;
  st_tok : mget tok m = None;
  st_names : forall k, mget k (props_of m) <> None -> exists f, In f fs /\ f_skip_ser f = false /\ field_declares f k;
  st_fits : forall l es, (forall x, In x l -> rsize x < n) -> fields_json fs l = Some es ->
    suits (props_of m) (required_of m) (rest_of deny m) es }.

Lemma st_get n fs deny m m' : st n fs deny m -> sorted_keys (map fst m') = true -> mget tok m' = None ->
  (forall k, In k kws \/ In k ctx -> mget k m' = mget k m) -> st n fs deny m'.
Proof.
  intros [A1 A2 A3 A4 A5 A6 A7 A8 A9 A10] HS HT HG.
  assert (P : props_of m' = props_of m) by (unfold props_of; rewrite HG; [reflexivity|left; in_names]).
  assert (Rq : required_of m' = required_of m) by (unfold required_of; rewrite HG; [reflexivity|left; in_names]).
  split; auto.
  - destruct A1 as (K1 & K2 & K3 & K4). split; [|split; [|split]].
    + intros k Hk HN. rewrite HG in HN by auto. auto.
    + rewrite HG by (left; in_names). auto.
    + rewrite HG by (left; in_names). auto.
    + rewrite HG by (left; in_names). auto.
  - rewrite HG by (left; in_names). auto.
  - rewrite HG by (right; in_names). auto.
  - rewrite HG by (right; in_names). auto.
  - now rewrite P.
  - rewrite HG by (left; in_names). auto.
  - now rewrite P.
  - intros l es. unfold rest_of. rewrite P, Rq, HG by (left; in_names). apply A10.
Qed.

Lemma st_annotate n fs deny k x m : annotation k -> k <> tok -> st n fs deny m -> st n fs deny (mset k x m).
Proof.
  intros A T H. apply (st_get n fs deny m); auto.
  - apply sorted_mset, (st_sorted _ _ _ _ H).
  - rewrite mget_mset. destruct (String.eqb_spec tok k); [congruence|]. apply (st_tok _ _ _ _ H).
  - intros c Hc. rewrite mget_mset. destruct (String.eqb_spec c k) as [->|]; [|reflexivity].
    destruct A. tauto.
Qed.

Lemma st_meta n fs deny l : forall m, wf_meta l -> st n fs deny m -> exists m', insert_all l (JObj m) = JObj m' /\ st n fs deny m'.
Proof.
  induction l as [|[k x] l IH]; intros m W H; [now exists m|]. rewrite insert_all_cons.
  unfold insert. cbn [fst snd ensure_obj ensure_object]. apply IH.
  - intros k' x' Hin. apply (W k' x'). now right.
  - destruct (W k x (or_introl eq_refl)). now apply st_annotate.
Qed.

Lemma st_safe n fs deny m : st n fs deny m -> safe (JObj m).
Proof.
  intros H. assert (HA : forall k, In k kws -> ~ In k object_keywords -> mget k m = None).
  { intros k Hk Ho. apply shape_absent; auto. apply (st_shape _ _ _ _ H). }
  apply safe_plain; auto.
  - apply imm_false. intros k Hk. apply HA; [now apply imm_kws|]. intros HO. cbn in Hk, HO.
    repeat (destruct Hk as [<-|Hk]; [repeat (destruct HO as [HO|HO]; [discriminate|]); exact HO|]). exact Hk.
  - apply HA; [in_names|]. intros HO. cbn in HO. repeat (destruct HO as [HO|HO]; [discriminate|]); exact HO.
  - apply HA; [in_names|]. intros HO. cbn in HO. repeat (destruct HO as [HO|HO]; [discriminate|]); exact HO.
  - unfold has_type, s_get. now rewrite (st_type _ _ _ _ H).
  - apply (st_tok _ _ _ _ H).
Qed.

(** What fits is accepted. *)
Lemma fits_valid m es : object_shape m -> mget "additionalProperties" m = None \/ mget "additionalProperties" m = Some (JBool false) ->
  fits (props_of m) (required_of m) es -> ok_ (JObj m) (JObj (mk es)) = true.
Proof.
  intros HS HA [F1 F2 F3 F4]. rewrite valid_shape by exact HS.
  assert (HG : forall k, mget k (mk es) = mget k es) by (intros k; now apply mget_mk_NoDup).
  rewrite !andb_true_iff. repeat split.
  - cbn [props_ok]. apply forallb_forall. intros [k x] Hin. cbn [fst snd].
    destruct (mget k (props_of m)) as [s|] eqn:EP; [|reflexivity]. apply (F3 k s x EP). rewrite <- HG.
    now apply (NoDup_mget _ _ _ (sorted_NoDup _ (sorted_mk _))).
  - cbn [required_ok]. apply forallb_forall. intros [| | |k| |] Hin; try reflexivity. unfold mhas. rewrite HG.
    specialize (F4 k Hin). now destruct (mget k es).
  - unfold additional_ok. destruct HA as [->| ->]; [reflexivity|]. apply forallb_forall. intros [k x] Hin.
    cbn [fst snd]. apply orb_true_intro. left. unfold mhas.
    assert (HM : mget k (mk es) = Some x) by now apply (NoDup_mget _ _ _ (sorted_NoDup _ (sorted_mk _))).
    rewrite HG in HM. assert (HI : In k (map fst es)) by (apply mhas_In; congruence).
    specialize (F2 k HI). now destruct (mget k (props_of m)).
Qed.

Lemma mk_has {A} (l : list (string * A)) k : In k (map fst l) -> mget k (mk l) <> None.
Proof.
  unfold mk, mappend. intros H.
  assert (G : forall m : list (string * A), (In k (map fst l) \/ mget k m <> None) ->
    mget k (fold_left (fun m (kv : string * A) => mset (fst kv) (snd kv) m) l m) <> None); [|now apply G; left].
  clear H. induction l as [|[k' x] l IH]; intros m H; [destruct H as [[]|H]; exact H|]. cbn [fold_left fst snd]. apply IH.
  rewrite mget_mset. destruct (String.eqb_spec k k') as [->|HN]; [right; discriminate|].
  destruct H as [[H|H]|H]; [cbn in H; congruence|now left|now right].
Qed.
Lemma In_mk {A} (es : list (string * A)) k x : In (k, x) (mk es) -> In (k, x) es.
Proof.
  unfold mk, mappend.
  assert (G : forall m, In (k, x) (fold_left (fun m (kv : string * A) => mset (fst kv) (snd kv) m) es m) ->
    sorted_keys (map fst m) = true -> In (k, x) es \/ In (k, x) m).
  { induction es as [|[k' y] es IH]; intros m HI HS; [now right|]. cbn [fold_left fst snd] in HI.
    destruct (IH _ HI (sorted_mset _ _ _ HS)) as [HH|HH]; [left; now right|].
    apply NoDup_mget in HH; [|now apply sorted_NoDup, sorted_mset]. rewrite mget_mset in HH.
    destruct (String.eqb_spec k k') as [->|]; [injection HH as ->; left; now left|].
    right. now apply mget_In. }
  intros HI. destruct (G [] HI eq_refl) as [HH|[]]. exact HH.
Qed.

Lemma st_valid n fs deny m es : st n fs deny m -> suits (props_of m) (required_of m) (rest_of deny m) es -> ok_ (JObj m) (JObj (mk es)) = true.
Proof.
  intros H [F1 F2 F3 F4]. rewrite valid_shape by apply (st_shape _ _ _ _ H). rewrite !andb_true_iff. repeat split.
  - cbn [props_ok]. apply forallb_forall. intros [k x] Hin. cbn [fst snd].
    destruct (mget k (props_of m)) as [s|] eqn:EP; [|reflexivity]. apply (F1 k s x EP). now apply In_mk.
  - cbn [required_ok]. apply forallb_forall. intros [| | |k| |] Hin; try reflexivity. unfold mhas.
    specialize (F3 k Hin). destruct (mget k (mk es)) eqn:EM; [reflexivity|]. exfalso.
    assert (HI : In k (map fst es)) by now apply mhas_In. revert EM. apply (mk_has es k HI).
  - unfold additional_ok. pose proof (st_add _ _ _ _ H) as HA. unfold rest_of in F2.
    destruct (mget "additionalProperties" m) as [a|] eqn:EA; [|reflexivity].
    apply forallb_forall. intros [k x] Hin. apply In_mk in Hin. cbn [fst snd]. unfold mhas.
    destruct (mget k (props_of m)) eqn:EP; [reflexivity|]. destruct (F2 k x Hin EP) as (_ & s & HS & HV).
    destruct deny; [discriminate|]. injection HS as <-. exact HV.
Qed.

(** Without a flattened map *)
Lemma st_closed n fs deny m : st n fs deny m -> no_maps fs ->
  mget "additionalProperties" m = if deny then Some (JBool false) else None.
Proof. intros H HC. pose proof (st_add _ _ _ _ H) as HA. destruct deny; auto. Qed.
Lemma st_fits_closed n fs deny m l es : st n fs deny m -> no_maps fs -> (forall x, In x l -> rsize x < n) -> fields_json fs l = Some es ->
  fits (props_of m) (required_of m) es.
Proof.
  intros H HC HL HJ. apply suits_fits. pose proof (st_fits _ _ _ _ H l es HL HJ) as HS. unfold rest_of in HS.
  rewrite (st_closed _ _ _ _ H HC) in HS. now destruct deny.
Qed.

Lemma st_start n (deny : bool) : exists m,
  obj ((("type", JStr "object") : string * json) :: if deny then [("additionalProperties", JBool false)] else []) = JObj m /\ st n [] deny m.
Proof.
  eexists. split; [reflexivity|]. 
  assert (HF : suits [] [] None []) by (split; [discriminate|intros k x []|intros k []|constructor]).
  split.
  - destruct deny; (split; [|split; [|split]]); try (right; reflexivity); try (left; reflexivity);
      intros k Hk HN; apply mk_keys in HN; cbn in HN; repeat (destruct HN as [<-|HN]; [in_names|]); destruct HN.
  - destruct deny; reflexivity.
  - destruct deny; reflexivity.
  - destruct deny; reflexivity.
  - apply sorted_mk.
  - destruct deny; reflexivity.
  - destruct deny; reflexivity.
  - apply fresh_mk; [exact tok_fresh|]. destruct deny; reflexivity.
  - destruct deny; cbn; congruence.
  - intros l es _ HL. destruct l; [|discriminate]. injection HL as <-. destruct deny; exact HF.
Qed.

(** ** Adding a field *)
Lemma fields_json_one f l es : fields_json [f] l = Some es -> exists x, l = [x]
  /\ (((f_skip_ser f || skip_now f x = true)%bool /\ es = [])
      \/ (f_skip_ser f || skip_now f x = false /\ exists v, ser_field true f (x, ser_ x) = Some v
          /\ ((f_flatten f = true /\ exists fe, flat_entries v = Some fe /\ clashes true rn f fe = false /\ omap entry_json fe = Some es)
              \/ (f_flatten f = false /\ exists j, json_of v = Some j /\ es = [(f_ser f, j)])))).
Proof.
  unfold fields_json. destruct l as [|x [|]]; cbn [parts map Serde.ser_fields]; try discriminate. cbn [fst].
  intros H. exists x. split; [reflexivity|]. destruct (f_skip_ser f || skip_now f x).
  - left. split; [reflexivity|]. now injection H as <-.
  - right. split; [reflexivity|]. destruct (ser_field true f (x, ser_ x)) as [v|]; [|discriminate]. exists v. split; [reflexivity|].
    destruct (f_flatten f).
    + left. split; [reflexivity|]. destruct (flat_entries v) as [fe|]; [|discriminate]. exists fe. split; [reflexivity|].
      destruct (clashes true rn f fe); [discriminate|]. split; [reflexivity|]. now rewrite app_nil_r in H.
    + right. split; [reflexivity|]. cbn in H. destruct (json_of v) as [j|]; [|discriminate]. exists j. split; [reflexivity|].
      now injection H as <-.
Qed.

(** A skipped field *)
Lemma closed_app a b : no_maps (a ++ b) -> no_maps a /\ no_maps b.
Proof. intros H. split; intros f Hf; apply H, in_or_app; auto. Qed.
Lemma add_app fs g deny m : (if deny : bool then mget "additionalProperties" m = Some (JBool false)
    else no_maps fs -> mget "additionalProperties" m = None) ->
  if deny then mget "additionalProperties" m = Some (JBool false) else no_maps (fs ++ g) -> mget "additionalProperties" m = None.
Proof. destruct deny; auto. intros H HC. apply H. now apply closed_app in HC. Qed.

Lemma st_skip n fs deny m f : f_skip_ser f = true -> st n fs deny m -> st n (fs ++ [f]) deny m.
Proof.
  intros HS H. destruct H as [A1 A2 A3 A4 A5 A6 A7 A8 A9 A10]. split; auto.
  - now apply add_app.
  - intros k Hk. destruct (A9 k Hk) as (g & Hg & H). exists g. split; [apply in_or_app; now left|exact H].
  - intros l es HL HJ. apply fields_json_app in HJ as (l1 & l2 & e1 & e2 & -> & H1 & H2 & ->).
    apply fields_json_one in H2 as (x & -> & [[_ ->]|[H2 _]]); [|rewrite HS in H2; discriminate].
    rewrite app_nil_r. apply (A10 l1 e1); auto. intros y Hy. apply HL, in_or_app. now left.
Qed.

Lemma insert_property_get m key opt sub : 
  (mget "properties" m = None \/ exists ps, mget "properties" m = Some (JObj ps)) ->
  (mget "required" m = None \/ exists l, mget "required" m = Some (JArr l)) ->
  exists m', insert_object_property (JObj m) key opt sub = JObj m'
    /\ (forall k, mget k m' =
         if String.eqb k "properties" then Some (JObj (mset key sub (props_of m)))
         else if String.eqb k "required" && negb opt then Some (JArr (required_of m ++ [JStr key]))
         else mget k m).
Proof.
  intros HP HR. unfold insert_object_property. cbn [ensure_obj ensure_object]. eexists. split; [reflexivity|].
  set (m1 := entry_update "properties" _ _ m).
  assert (G1 : forall k, mget k m1 = if String.eqb k "properties" then Some (JObj (mset key sub (props_of m))) else mget k m).
  { intros k. unfold m1. rewrite entry_get. destruct (String.eqb k "properties"); [|reflexivity]. unfold props_of.
    destruct HP as [->|[ps ->]]; reflexivity. }
  clearbody m1. intros k. destruct opt; cbn [negb].
  - rewrite andb_false_r. apply G1.
  - rewrite andb_true_r, entry_get, !G1. cbn [String.eqb Ascii.eqb Bool.eqb].
    destruct (String.eqb_spec k "required") as [->|].
    + unfold required_of. destruct HR as [->|[l ->]]; reflexivity.
    + reflexivity.
Qed.

Lemma sorted_mupd {A} k (f : A -> A) (m : list (string * A)) : map fst (mupd k f m) = map fst m.
Proof. induction m as [|[k' x] m IH]; [reflexivity|]. cbn. destruct (String.eqb k k'); cbn; [reflexivity|now rewrite IH]. Qed.

Lemma sorted_entry k d f (m : map_t) : sorted_keys (map fst m) = true -> sorted_keys (map fst (entry_update k d f m)) = true.
Proof.
  intros H. unfold entry_update. rewrite sorted_mupd. destruct (mhas k m); [exact H|]. now apply sorted_mset.
Qed.

Lemma insert_property_sorted m key opt sub m' : insert_object_property (JObj m) key opt sub = JObj m' ->
  sorted_keys (map fst m) = true -> sorted_keys (map fst m') = true.
Proof.
  unfold insert_object_property. cbn [ensure_obj ensure_object]. intros [= <-] H. destruct opt.
  - now apply sorted_entry.
  - now apply sorted_entry, sorted_entry.
Qed.

Lemma st_field n fs deny m f opt sub :
  st n fs deny m -> f_skip_ser f = false -> f_flatten f = false -> In (f_ser f) rn ->
  (forall g, In g fs -> f_skip_ser g = false -> forall k, field_declares g k -> ~ field_declares f k) ->
  (f_skip_if f <> None -> opt = true) ->
  (forall x v j, rsize x < n -> ser_field true f (x, ser_ x) = Some v -> json_of v = Some j -> ok_ sub j = true) ->
  exists m', insert_object_property (JObj m) (f_ser f) opt sub = JObj m' /\ st n (fs ++ [f]) deny m'.
Proof.
  intros H HS HF HR HD HO HV. pose proof H as [A1 A2 A3 A4 A5 A6 A7 A8 A9 A10].
  destruct A1 as (K1 & K2 & K3 & K4).
  destruct (insert_property_get m (f_ser f) opt sub K3 K4) as (m' & HE & G). exists m'. split; [exact HE|].
  assert (P : props_of m' = mset (f_ser f) sub (props_of m)) by (unfold props_of at 1; now rewrite G).
  assert (Rq : required_of m' = if opt then required_of m else required_of m ++ [JStr (f_ser f)]).
  { unfold required_of at 1. rewrite G. cbn [String.eqb Ascii.eqb Bool.eqb andb]. destruct opt; reflexivity. }
  assert (NP : mget (f_ser f) (props_of m) = None).
  { destruct (mget (f_ser f) (props_of m)) eqn:EP; [|reflexivity]. exfalso.
    destruct (A9 (f_ser f)) as (g & Hg & Hs & Hk); [congruence|]. apply (HD g Hg Hs _ Hk). now constructor. }
  split.
  - split; [|split; [|split]].
    + intros k Hk HN. rewrite G in HN. destruct (String.eqb_spec k "properties") as [->|]; [in_names|].
      destruct (String.eqb_spec k "required") as [->|]; [in_names|]. auto.
    + rewrite G. cbn [String.eqb Ascii.eqb Bool.eqb andb]. exact K2.
    + rewrite G. cbn [String.eqb Ascii.eqb Bool.eqb]. eauto.
    + rewrite G. cbn [String.eqb Ascii.eqb Bool.eqb andb]. destruct (negb opt); eauto.
  - rewrite G. exact A2.
  - rewrite G. exact A3.
  - rewrite G. exact A4.
  - eapply insert_property_sorted; eauto.
  - rewrite P. now apply sorted_mset.
  - rewrite G. now apply add_app.
  - rewrite G. destruct (String.eqb_spec tok "properties") as [HT|]; [exfalso; apply tok_fresh; rewrite HT; in_names|].
    destruct (String.eqb_spec tok "required") as [HT|]; [exfalso; apply tok_fresh; rewrite HT; in_names|]. exact A8.
  - intros k. rewrite P, mget_mset. destruct (String.eqb_spec k (f_ser f)) as [->|].
    + intros _. exists f. split; [apply in_or_app; right; now left|]. split; [exact HS|]. now constructor.
    + intros Hk. destruct (A9 k Hk) as (g & Hg & Hk'). exists g. split; [apply in_or_app; now left|exact Hk'].
  - intros l es HL HJ. apply fields_json_app in HJ as (l1 & l2 & e1 & e2 & -> & H1 & H2 & ->).
    assert (F1 : suits (props_of m) (required_of m) (rest_of deny m) e1).
    { apply (A10 l1); auto. intros y Hy. apply HL, in_or_app. now left. }
    assert (F2 : suits [(f_ser f, sub)] (if opt then [] else [JStr (f_ser f)]) None e2).
    { apply fits_suits. apply fields_json_one in H2 as (x & -> & H2). assert (HX : rsize x < n) by (apply HL, in_or_app; right; now left).
      destruct H2 as [[H2 ->]|(H2 & v & Hv & [[H3 _]|[_ (j & Hj & ->)]])].
      - rewrite HS in H2. cbn [orb] in H2. unfold skip_now in H2.
        assert (HO' : opt = true) by (apply HO; intros HN; rewrite HN in H2; discriminate).
        rewrite HO'. split; [constructor|intros k []|discriminate|intros k []].
      - congruence.
      - split.
        + repeat constructor. intros [].
        + cbn. intros k [<-|[]]. rewrite String.eqb_refl. discriminate.
        + cbn. intros k s y. destruct (String.eqb k (f_ser f)); [|discriminate]. intros [= <-] [= <-]. eapply HV; eauto.
        + intros k Hk. cbn. destruct opt; [destruct Hk|]. destruct Hk as [[= <-]|[]]. now rewrite String.eqb_refl. }
    assert (F : suits (mappend (props_of m) [(f_ser f, sub)]) (required_of m ++ if opt then [] else [JStr (f_ser f)])
                  (either (rest_of deny m) None) (e1 ++ e2)).
    { apply suits_app; auto; try congruence.
      - intros k Hk. cbn. destruct (String.eqb_spec k (f_ser f)) as [->|]; [congruence|auto].
      - intros _ k. cbn. destruct (String.eqb_spec k (f_ser f)) as [->|]; [auto|congruence]. }
    assert (ER : rest_of deny m' = either (rest_of deny m) None).
    { unfold rest_of. rewrite G. cbn [String.eqb Ascii.eqb Bool.eqb andb]. destruct deny; [reflexivity|]. unfold either. now destruct (mget "additionalProperties" m). }
    rewrite P, Rq, ER. revert F. apply suits_lookup; [reflexivity|]. intros k. destruct opt; [|auto]. rewrite in_app_iff. auto.
Qed.

End Reserved.

(** A flattened struct *)
Lemma struct_sv name fs v l sv es : ser_struct true name (Struct fs) (parts l) = Some sv -> v = RSeq l ->
  flat_entries sv = Some es -> ser_fields true (own_names fs) fs (parts l) = Some es.
Proof.
  cbn [Serde.ser_struct]. destruct (ser_fields true (own_names fs) fs (parts l)) as [e|]; [|discriminate]. cbn [option_map]. intros [= <-] _.
  rewrite flat_struct_value. congruence.
Qed.

Lemma ser_adt v n cs ts sv def fs : ser_ v (TAdt n cs ts) = Some sv -> d_data (it_decl (items n) cs ts) = DStruct def (Struct fs) ->
  exists l, v = RSeq l /\ ser_struct true (it_name (items n)) (Struct fs) (parts l) = Some sv.
Proof.
  intros H HD. destruct v as [| | | | | | |l| | | |i l]; cbn [ser] in H; try discriminate;
    unfold ser_decl in H; rewrite HD in H; [|discriminate]. exists l. split; [reflexivity|exact H].
Qed.

Lemma st_flat rn n fs deny m f i cs ts def fs' deny' d :
  st rn n fs deny m -> f_skip_ser f = false -> f_flatten f = true -> no_maps fs -> no_maps fs' ->
  strip_option (f_ty f) = TAdt i cs ts -> d_data (it_decl (items i) cs ts) = DStruct def (Struct fs') ->
  st (own_names fs') (pred n) fs' deny' d ->
  (forall g, In g fs -> f_skip_ser g = false -> forall k, field_declares g k -> ~ field_declares f k) ->
  (f_skip_if f <> None -> is_option (f_ty f) = true /\ f_required f = false) ->
  exists m', flatten (JObj m) (for_flatten (JObj d) (is_option (f_ty f) && negb (f_required f))) = JObj m'
    /\ st rn n (fs ++ [f]) deny m'.
Proof.
  intros H HS HF CL CL' HT HDt H' HD HO. pose proof H as [A1 A2 A3 A4 A5 A6 A7 A8 A9 A10]. pose proof H' as [B1 B2 B3 B4 B5 B6 B7 B8 B9 B10].
  set (opt := is_option (f_ty f) && negb (f_required f)).
  destruct (for_flatten_get d opt B1 B3 B4) as (d' & -> & G & SG).
  assert (HS' : object_shape d').
  { destruct B1 as (K1 & K2 & K3 & K4). split; [|split; [|split]].
    - intros k Hk HN. apply K1; [exact Hk|]. rewrite G in HN.
      destruct (opt && String.eqb k "required"); [|destruct (mget k d); [discriminate|]];
        destruct (mem k ["additionalProperties"; "unevaluatedProperties"]); cbn in HN; congruence.
    - rewrite G. cbn [mem existsb String.eqb Ascii.eqb Bool.eqb orb andb].
      rewrite andb_false_r. exact K2.
    - rewrite G. cbn [mem existsb String.eqb Ascii.eqb Bool.eqb orb andb]. rewrite andb_false_r. exact K3.
    - rewrite G. cbn [mem existsb String.eqb Ascii.eqb Bool.eqb orb andb]. rewrite andb_true_r.
      destruct opt; auto. }
  assert (P1 : props_of d' = props_of d).
  { unfold props_of. rewrite G. cbn [mem existsb String.eqb Ascii.eqb Bool.eqb orb andb]. now rewrite andb_false_r. }
  assert (R1 : required_of d' = if opt then [] else required_of d).
  { unfold required_of. rewrite G. cbn [mem existsb String.eqb Ascii.eqb Bool.eqb orb andb]. rewrite andb_true_r. now destruct opt. }
  assert (SD : sorted_keys (map fst d') = true) by (apply SG, B5).
  destruct (flatten_facts m d' A1 HS' (sorted_NoDup _ SD) A6) as (r & -> & F1 & F2 & F3 & F4 & F5 & F6).
  { now rewrite P1. }
  exists r. split; [reflexivity|].
  pose proof (st_closed _ _ _ _ _ H CL) as AM. pose proof (st_closed _ _ _ _ _ H' CL') as BM.
  assert (AD : mget "additionalProperties" d' = None).
  { rewrite G. cbn [mem existsb String.eqb Ascii.eqb Bool.eqb orb andb]. rewrite andb_false_r, BM. now destruct deny'. }
  assert (KEEP : forall c, c <> "allOf" -> ~ In c ["oneOf"; "anyOf"] -> mget c d' = None -> mget c r = mget c m).
  { intros c C1 C2 HN. rewrite (F5 c C1 C2), HN. reflexivity. }
  assert (ND : forall c, mget c d = None -> mget c d' = None).
  { intros c HN. rewrite G, HN. destruct (opt && String.eqb c "required"); destruct (mem c _); reflexivity. }
  assert (TK : tok <> "allOf" /\ ~ In tok ["oneOf"; "anyOf"]).
  { split; [intros HE; apply tok_fresh; rewrite HE; in_names|]. intros [HE|[HE|[]]]; apply tok_fresh; rewrite <- HE; in_names. }
  assert (FD : forall k, mget k (props_of d) <> None -> field_declares f k).
  { intros k Hk. apply FieldFlat; [exact HF|]. rewrite HT. destruct (B9 k Hk) as (g & Hg & Hs & Hd). econstructor; eauto. }
  split.
  - exact F1.
  - rewrite F5 by (try discriminate; intros [HH|[HH|[]]]; discriminate).
    destruct (mget "type" d') eqn:EY; [|exact A2]. unfold flatten_plain. rewrite A2. cbn [mem existsb String.eqb Ascii.eqb Bool.eqb orb]. exact A2.
  - rewrite KEEP; auto; try discriminate. intros [HH|[HH|[]]]; discriminate.
  - rewrite KEEP; auto; try discriminate. intros [HH|[HH|[]]]; discriminate.
  - apply F6, A5.
  - rewrite F2. clear -A6. revert A6. generalize (props_of m) (props_of d'). intros a b. unfold mappend. revert a.
    induction b as [|[k x] b IH]; intros a Ha; [exact Ha|]. cbn [fold_left]. apply IH. now apply sorted_mset.
  - rewrite F4, AD, AM. now destruct deny.
  - rewrite KEEP; auto; apply TK.
  - intros k. rewrite F2, mget_mappend_NoDup by (apply sorted_NoDup; now rewrite P1). rewrite P1.
    destruct (mget k (props_of d)) eqn:EK.
    + intros _. exists f. split; [apply in_or_app; right; now left|]. split; [exact HS|]. apply FD. congruence.
    + intros Hk. destruct (A9 k Hk) as (g & Hg & Hk'). exists g. split; [apply in_or_app; now left|exact Hk'].
  - intros l es HL HJ. apply fields_json_app in HJ as (l1 & l2 & e1 & e2 & -> & H1 & H2 & ->).
    assert (X1 : fits (props_of m) (required_of m) e1).
    { apply (st_fits_closed rn n fs deny m l1); auto. intros y Hy. apply HL, in_or_app. now left. }
    assert (EMPTY : opt = true -> fits (props_of d') (required_of d') []).
    { intros HOp. rewrite R1, HOp. split; [constructor|intros k []|discriminate|intros k []]. }
    assert (X2 : fits (props_of d') (required_of d') e2).
    { apply fields_json_one in H2 as (x & -> & H2). assert (HX : rsize x < n) by (apply HL, in_or_app; right; now left).
      destruct H2 as [[H2 ->]|(H2 & v & Hv & [[_ (fe & Hfe & _ & Hje)]|[H3 _]])]; [| |congruence].
      - rewrite HS in H2. cbn [orb] in H2. unfold skip_now in H2. apply EMPTY.
        destruct HO as [O1 O2]; [intros HN; rewrite HN in H2; discriminate|]. unfold opt. now rewrite O1, O2.
      - rewrite flat_field in Hv by assumption. cbn [andb fst snd] in Hv.
        destruct (present (f_ty f) x) eqn:EPr.
        + rewrite andb_false_r in Hv.
          destruct (present_strip items text_ok (f_ty f) x v EPr Hv) as (v' & sv' & Q1 & Q2 & _ & Q4).
          rewrite HT in Q2. destruct (ser_adt _ _ _ _ _ _ _ Q2 HDt) as (l' & -> & Q3).
          assert (Q5 : ser_fields true (own_names fs') fs' (parts l') = Some fe).
          { eapply struct_sv; eauto. congruence. }
          assert (X : fits (props_of d) (required_of d) e2).
          { apply (st_fits_closed (own_names fs') (pred n) fs' deny' d l'); [exact H'|exact CL'| |unfold fields_json; now rewrite Q5]. intros y Hy. apply size_seq in Hy. lia. }
          revert X. apply fits_lookup; [now rewrite P1|]. rewrite R1. destruct opt; [intros k []|auto].
        + destruct (f_required f) eqn:ERq; [discriminate|].
          cbn [andb negb] in Hv. destruct (absent_flat items text_ok (f_ty f) x v EPr Hv) as [I1 I2].
          rewrite I2 in Hfe. injection Hfe as <-. injection Hje as <-. apply EMPTY. unfold opt. now rewrite I1. }
    assert (ER : rest_of deny r = None) by (unfold rest_of; rewrite F4, AD, AM; now destruct deny).
    rewrite F2, F3, ER. apply fits_suits, fits_app; auto; [now rewrite P1|].
    intros k K1 K2. rewrite P1 in K2. destruct (A9 k K1) as (g & Hg & Hs & Hd). apply (HD g Hg Hs k Hd). now apply FD.
Qed.

(** A flattened map: its schema declares no properties. *)
Record map_like (n : nat) (v : rty) (d : map_t) : Prop := {
  ml_shape : object_shape d;
  ml_then : mget "then" d = None;
  ml_else : mget "else" d = None;
  ml_sorted : sorted_keys (map fst d) = true;
  ml_tok : mget tok d = None;
  ml_props : mget "properties" d = None;
  ml_req : mget "required" d = None;
  ml_rest : exists vs, mget "additionalProperties" d = Some vs /\ vs <> JBool false
    /\ forall x sv j, rsize x < n -> ser_ x v = Some sv -> json_of sv = Some j -> ok_ vs j = true }.

Lemma map_entries l v sv fe es : ser_ (RMap l) (TMap TStr v) = Some sv -> flat_entries sv = Some fe -> omap entry_json fe = Some es ->
  forall k j, In (k, j) es -> In k (map fst fe) /\ exists x sx, rsize x < rsize (RMap l) /\ ser_ x v = Some sx /\ json_of sx = Some j.
Proof.
  cbn [ser]. set (g := fun kv : rval * rval => _). intros HS. destruct (omap g l) as [ss|] eqn:EG; [|discriminate]. injection HS as <-.
  cbn [flat_entries]. unfold str_entries. set (h := fun kv : sval * sval => _). intros HF HE k j Hin.
  apply omap_F2 in EG. apply omap_F2 in HF. apply omap_F2 in HE.
  assert (HB : exists b, In (k, b) fe /\ json_of b = Some j).
  { clear -HE Hin. induction HE as [|[k1 b] [k2 j2] fe es He HE IH]; [destruct Hin|]. destruct Hin as [[= -> ->]|Hin].
    - cbn in He. destruct (json_of b) eqn:EB; [|discriminate]. injection He as -> ->. exists b. split; [now left|exact EB].
    - destruct (IH Hin) as (b' & H1 & H2). exists b'. split; [now right|exact H2]. }
  destruct HB as (b & Hb & HJ). split; [apply in_map_iff; now exists (k, b)|].
  assert (HA : exists a, In (a, b) ss).
  { clear -HF Hb. induction HF as [|[a b1] [k1 b2] ss fe Hh HF IH]; [destruct Hb|]. destruct Hb as [[= -> ->]|Hb].
    - unfold h in Hh. destruct (key_json a); [|discriminate]. injection Hh as _ ->. exists a. now left.
    - destruct (IH Hb) as (a' & H). exists a'. now right. }
  destruct HA as (a & Ha).
  assert (HX : exists y x, In (y, x) l /\ ser_ x v = Some b).
  { clear -EG Ha. induction EG as [|[y x] [s1 s2] l ss Hg EG IH]; [destruct Ha|]. destruct Ha as [[= -> ->]|Ha].
    - unfold g in Hg. destruct (ser_ y TStr); [|discriminate]. destruct (ser_ x v) eqn:EX; [|discriminate]. injection Hg as _ ->. exists y, x. split; [now left|exact EX].
    - destruct (IH Ha) as (y' & x' & H1 & H2). exists y', x'. split; [now right|exact H2]. }
  destruct HX as (y & x & Hx & HV). exists x, b. split; [now apply (size_map l y x)|]. now split.
Qed.

Lemma st_map rn n fs m f v d :
  st rn n fs false m -> f_skip_ser f = false -> f_flatten f = true -> no_maps fs ->
  (forall k, mget k (props_of m) <> None -> In k rn) ->
  strip_option (f_ty f) = TMap TStr v -> map_like (pred n) v d ->
  exists m', flatten (JObj m) (for_flatten (JObj d) (is_option (f_ty f) && negb (f_required f))) = JObj m'
    /\ st rn n (fs ++ [f]) false m'.
Proof.
  intros H HS HF CL HRN HT [B1 B3 B4 B5 B8 BP BR (vs & BA & BF & BV)]. pose proof H as [A1 A2 A3 A4 A5 A6 A7 A8 A9 A10].
  set (opt := is_option (f_ty f) && negb (f_required f)).
  destruct (for_flatten_get d opt B1 B3 B4) as (d' & -> & G & SG).
  assert (HS' : object_shape d').
  { destruct B1 as (K1 & K2 & K3 & K4). split; [|split; [|split]].
    - intros k Hk HN. apply K1; [exact Hk|]. rewrite G in HN.
      destruct (opt && String.eqb k "required"); [|destruct (mget k d); [discriminate|]];
        destruct (mem k ["additionalProperties"; "unevaluatedProperties"]); cbn in HN; congruence.
    - rewrite G. cbn [mem existsb String.eqb Ascii.eqb Bool.eqb orb andb]. rewrite andb_false_r. exact K2.
    - rewrite G. cbn [mem existsb String.eqb Ascii.eqb Bool.eqb orb andb]. rewrite andb_false_r. exact K3.
    - rewrite G. cbn [mem existsb String.eqb Ascii.eqb Bool.eqb orb andb]. rewrite andb_true_r. destruct opt; auto. }
  assert (P1 : props_of d' = []).
  { unfold props_of. rewrite G. cbn [mem existsb String.eqb Ascii.eqb Bool.eqb orb andb]. now rewrite andb_false_r, BP. }
  assert (R1 : required_of d' = []).
  { unfold required_of. rewrite G. cbn [mem existsb String.eqb Ascii.eqb Bool.eqb orb andb]. rewrite andb_true_r, BR. now destruct opt. }
  assert (SD : sorted_keys (map fst d') = true) by (apply SG, B5).
  destruct (flatten_facts m d' A1 HS' (sorted_NoDup _ SD) A6) as (r & -> & F1 & F2 & F3 & F4 & F5 & F6).
  { now rewrite P1. }
  exists r. split; [reflexivity|]. rewrite P1 in F2. rewrite R1, app_nil_r in F3. cbn [mappend fold_left] in F2.
  pose proof (st_closed _ _ _ _ _ H CL) as AM. cbn in AM.
  assert (AD : mget "additionalProperties" d' = Some vs).
  { rewrite G. cbn [mem existsb String.eqb Ascii.eqb Bool.eqb orb andb]. rewrite andb_false_r, BA. destruct vs as [|[]| | | |]; try reflexivity. congruence. }
  assert (AR : mget "additionalProperties" r = Some vs) by now rewrite F4, AM, AD.
  assert (KEEP : forall c, c <> "allOf" -> ~ In c ["oneOf"; "anyOf"] -> mget c d' = None -> mget c r = mget c m).
  { intros c C1 C2 HN. rewrite (F5 c C1 C2), HN. reflexivity. }
  assert (ND : forall c, mget c d = None -> mget c d' = None).
  { intros c HN. rewrite G, HN. destruct (opt && String.eqb c "required"); destruct (mem c _); reflexivity. }
  assert (TK : tok <> "allOf" /\ ~ In tok ["oneOf"; "anyOf"]).
  { split; [intros HE; apply tok_fresh; rewrite HE; in_names|]. intros [HE|[HE|[]]]; apply tok_fresh; rewrite <- HE; in_names. }
  split.
  - exact F1.
  - rewrite F5 by (try discriminate; intros [HH|[HH|[]]]; discriminate).
    destruct (mget "type" d') eqn:EY; [|exact A2]. unfold flatten_plain. rewrite A2. cbn [mem existsb String.eqb Ascii.eqb Bool.eqb orb]. exact A2.
  - rewrite KEEP; auto; try discriminate. intros [HH|[HH|[]]]; discriminate.
  - rewrite KEEP; auto; try discriminate. intros [HH|[HH|[]]]; discriminate.
  - apply F6, A5.
  - now rewrite F2.
  - intros HC. apply closed_app in HC as [_ HC]. specialize (HC f (or_introl eq_refl)). unfold map_field, flat_map_ty in HC.
    rewrite HS, HF, HT in HC. discriminate.
  - rewrite KEEP; auto; apply TK.
  - intros k. rewrite F2. intros Hk. destruct (A9 k Hk) as (g & Hg & Hk'). exists g. split; [apply in_or_app; now left|exact Hk'].
  - intros l es HL HJ. apply fields_json_app in HJ as (l1 & l2 & e1 & e2 & -> & H1 & H2 & ->).
    assert (X1 : fits (props_of m) (required_of m) e1).
    { apply (st_fits_closed rn n fs false m l1); auto. intros y Hy. apply HL, in_or_app. now left. }
    apply (fits_suits rn) in X1. unfold rest_of. rewrite AR, F2, F3.
    assert (X2 : suits rn [] [] (Some vs) e2).
    { assert (EMPTY : suits rn [] [] (Some vs) []) by (split; [discriminate|intros k x []|intros k []|discriminate]).
      apply fields_json_one in H2 as (x & -> & H2). assert (HX : rsize x < n) by (apply HL, in_or_app; right; now left).
      destruct H2 as [[H2 ->]|(H2 & w & Hv & [[_ (fe & Hfe & Hcl & Hje)]|[H3 _]])]; [exact EMPTY| |congruence].
      rewrite flat_field in Hv by assumption. cbn [andb fst snd] in Hv. destruct (f_required f && negb (present (f_ty f) x)) eqn:ERq; [discriminate Hv|].
      destruct (present (f_ty f) x) eqn:EPr.
      - destruct (present_strip items text_ok (f_ty f) x w EPr Hv) as (v' & sv' & Q1 & Q2 & _ & Q4).
        rewrite HT in Q2. rewrite <- Q4 in Hfe. destruct v' as [| | | | | | | |l'| | |]; try discriminate Q2.
        pose proof (map_entries l' v sv' fe e2 Q2 Hfe Hje) as HM. split; try discriminate.
        + intros k j Hin _. destruct (HM k j Hin) as (HK & y & sy & L & Y1 & Y2). split.
          * intros HI. unfold clashes, flat_map_ty in Hcl. rewrite HT in Hcl. cbn [andb] in Hcl.
            apply in_map_iff in HK as ([k' b] & E1 & HK). cbn in E1. subst k'.
            assert (HT' : existsb (fun kv : string * sval => existsb (String.eqb (fst kv)) rn) fe = true); [|congruence].
            apply existsb_exists. exists (k, b). split; [exact HK|]. apply existsb_exists. exists k. split; [exact HI|apply String.eqb_refl].
          * exists vs. split; [reflexivity|]. apply (BV y sy j); auto. lia.
        + intros k [].
      - destruct (absent_flat items text_ok (f_ty f) x w EPr Hv) as [I1 I2].
        rewrite I2 in Hfe. injection Hfe as <-. injection Hje as <-. exact EMPTY. }
    assert (X : suits rn (mappend (props_of m) []) (required_of m ++ []) (either None (Some vs)) (e1 ++ e2)).
    { apply suits_app; auto; try congruence. }
    rewrite app_nil_r in X. exact X.
Qed.
End StructSound.
