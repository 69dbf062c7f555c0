(** Property theorems C51: what a root schema adds to the schema of its type. *)
From Coq Require Import String Ascii List ZArith Bool Lia.
From Verif Require Import Json JsonFacts Encoding EncodingProofs Pointer PointerProofs SchemaApi
  Generate GenerateSpec GenerateProofs GenerateRun GenerateTrace GenerateDoc.
Import ListNotations.
Open Scope string_scope.
Open Scope list_scope.

(** [o] is the object of the schema [sch] with a default title and the meta schema, everything
    else being the same (the first step of the definitions path excepted, see C18). *)
Definition root_of (name path : string) (meta : option string) (sch : json) (o : map_t) : Prop :=
  forall k, (forall t ts, path_tokens path = t :: ts -> k <> t) ->
  mget k o =
    if String.eqb k "$schema" then
      match meta with Some m => Some (JStr m) | None => mget "$schema" (ensure_obj sch) end
    else if String.eqb k "title" then
      match mget "title" (ensure_obj sch) with Some t => Some t | None => Some (JStr name) end
    else mget k (ensure_obj sch).

Lemma walk_create_keeps f k ts : forall m,
  (forall t ts', ts = t :: ts' -> k <> t) -> ts <> [] ->
  mget k (fst (walk_create ts f m)) = mget k m.
Proof.
  destruct ts as [|t ts]; [congruence|]. intros m H _. specialize (H t ts eq_refl).
  assert (K : mget k (if mhas t m then m else mset t (JObj []) m) = mget k m).
  { destruct (mhas t m); [reflexivity|]. rewrite mget_mset. now destruct (String.eqb_spec k t). }
  cbn [walk_create]. destruct (mget t _) as [[]|]; try exact K.
  destruct (walk_create ts f m0) as [x b]. cbn [fst]. rewrite mget_mupd.
  destruct (String.eqb_spec k t); [contradiction|exact K].
Qed.

Lemma add_definitions_keeps path k m defs :
  definitions_path_stripped path <> "/" -> (forall t ts, path_tokens path = t :: ts -> k <> t) ->
  mget k (add_definitions path m defs) = mget k m.
Proof.
  intros HG H. unfold add_definitions. destruct defs as [|d defs]; [reflexivity|].
  destruct (definitions_path_stripped path) as [|a rest] eqn:E; [reflexivity|].
  destruct (Ascii.eqb_spec a "/") as [->|NA];
    [|cbn [json_pointer_update]; destruct (Ascii.eqb_spec a "/"); [contradiction|reflexivity]].
  assert (N : rest <> "") by (intros ->; now apply HG).
  rewrite <- E, json_pointer_update_good by (exists rest; auto).
  apply walk_create_keeps; [exact H|].
  unfold path_tokens. rewrite E. cbn [split_on].
  cbn. destruct (split_on "/" rest). discriminate.
Qed.

Lemma stripped_slash path : ~ In path ["//"; "#//"] -> definitions_path_stripped path <> "/".
Proof.
  intros H E. apply H.
  assert (S : forall s, strip_suffix_slash s = "/" -> s = "//").
  { intros [|a [|b s]]; cbn [strip_suffix_slash]; try discriminate.
    - destruct (Ascii.eqb_spec a "/"); [discriminate|congruence].
    - intros Q. injection Q as -> Q. destruct s as [|c s].
      + destruct (Ascii.eqb_spec b "/"); [now subst|discriminate].
      + discriminate. }
  unfold definitions_path_stripped in E. apply S in E. destruct path as [|a p]; [discriminate|].
  cbn [strip_prefix_hash] in E. destruct (Ascii.eqb_spec a "#") as [->|_].
  - right; left. now rewrite E.
  - left. now rewrite E.
Qed.

Lemma root_object_at {Ty St} (info : Ty -> tyinfo Ty St) t (s : settings St) sch defs path :
  definitions_path_stripped path <> "/" ->
  root_of (t_name (info t)) path (s_meta s) sch (add_definitions path (root_object info t s sch) defs).
Proof.
  intros HG k Hk. rewrite add_definitions_keeps by assumption.
  unfold root_object.
  assert (K : mget k (if mhas "title" (ensure_obj sch) then ensure_obj sch
              else mset "title" (JStr (t_name (info t))) (ensure_obj sch)) =
              if String.eqb k "title" then
                match mget "title" (ensure_obj sch) with Some t => Some t
                | None => Some (JStr (t_name (info t))) end
              else mget k (ensure_obj sch)).
  { destruct (mhas "title" (ensure_obj sch)) eqn:E.
    - apply mhas_mget in E as [x E]. destruct (String.eqb_spec k "title") as [->|]; [now rewrite E|reflexivity].
    - rewrite mget_mset. destruct (String.eqb_spec k "title") as [->|]; [|reflexivity].
      destruct (mget "title" (ensure_obj sch)) eqn:E2; [|reflexivity].
      assert (mhas "title" (ensure_obj sch) = true) by (apply mhas_mget; eauto). congruence. }
  destruct (s_meta s) as [m|].
  - rewrite mget_mset. destruct (String.eqb k "$schema"); [reflexivity|exact K].
  - etransitivity; [exact K|]. destruct (String.eqb_spec k "$schema") as [->|]; reflexivity.
Qed.

Lemma root_object_of {Ty St} (info : Ty -> tyinfo Ty St) t (s : settings St) sch defs path :
  good_path path ->
  root_of (t_name (info t)) path (s_meta s) sch (add_definitions path (root_object info t s sch) defs).
Proof. intros (rest & E & N). apply root_object_at. rewrite E. intros [= ->]. now apply N. Qed.

(** C51: [root_schema_for] returns the schema the type's implementation returns, with [$schema]
    from the settings and the type's name as title unless the schema has one. Only a definitions
    path that denotes the root itself would add more. *)
Theorem C51_root_schema_for : forall Ty St (info : Ty -> tyinfo Ty St) n t g doc g',
  s_transforms (g_set g) = [] -> ~ In (s_path (g_set g)) ["//"; "#//"] ->
  run info n (Root t (fun d => Ret d)) g = Some (doc, g') ->
  exists sch o, produced info t sch g' /\ doc = JObj o
  /\ root_of (t_name (info t)) (s_path (g_set g)) (s_meta (g_set g)) sch o.
Proof.
  intros Ty St info n t g doc g' HT HG H. unfold run in H. cbn [run_prog] in H.
  destruct (root_schema_for info (json_schema info n) t g) as [[d h]|] eqn:E; [|discriminate].
  injection H as -> ->. destruct (root_document _ _ _ _ _ _ HT E) as (sch & HP & ->).
  exists sch, (add_definitions (s_path (g_set g)) (root_object info t (g_set g) sch) (g_defs g')).
  split; [exact HP|]. split; [reflexivity|]. apply root_object_at. now apply stripped_slash.
Qed.
Print Assumptions C51_root_schema_for.

(** ... the same of [into_root_schema_for] ... *)
Theorem C51_into_root_schema_for : forall Ty St (info : Ty -> tyinfo Ty St) n t g doc,
  s_transforms (g_set g) = [] -> ~ In (s_path (g_set g)) ["//"; "#//"] ->
  into_root_schema_for info (json_schema info n) t g = Some doc ->
  exists sch o g', produced info t sch g' /\ doc = JObj o
  /\ root_of (t_name (info t)) (s_path (g_set g)) (s_meta (g_set g)) sch o.
Proof.
  intros Ty St info n t g doc HT HG H. unfold into_root_schema_for in H.
  destruct (json_schema_internal _ _ _ _) as [[s1 g1]|] eqn:E1; [|discriminate].
  pose proof (internal_produced _ _ _ _ _ _ _ E1) as HP.
  apply internal_frame in E1; [|apply json_schema_frame].
  pose proof (fr_set _ _ E1) as ES. cbn in ES.
  unfold take_definitions in H. cbn in H. unfold apply_transforms in H. cbn in H.
  rewrite ES, HT in H. cbn in H. injection H as <-.
  eexists s1, _, g1. split; [exact HP|]. split; [reflexivity|]. apply root_object_at. now apply stripped_slash.
Qed.
Print Assumptions C51_into_root_schema_for.

(** ... and the two agree: consuming the generator gives the same document. *)
Theorem C51_into_same : forall Ty St (info : Ty -> tyinfo Ty St) n t g doc g',
  run info n (Root t (fun d => Ret d)) g = Some (doc, g') ->
  into_root_schema_for info (json_schema info n) t g = Some doc.
Proof.
  intros Ty St info n t g doc g' H. unfold run in H. cbn [run_prog] in H.
  destruct (root_schema_for info (json_schema info n) t g) as [[d h]|] eqn:E; [|discriminate].
  injection H as -> ->. unfold root_schema_for in E. unfold into_root_schema_for.
  destruct (json_schema_internal _ _ _ _) as [[s1 g1]|]; [|discriminate].
  unfold take_definitions. unfold apply_transforms in *. cbn in *.
  destruct (fold_left _ _ _). now injection E as -> <-.
Qed.
Print Assumptions C51_into_same.

Example C51_example :
  let info := fun b : bool => TyInfo false (if b then "T" else "F") (if b then "T" else "F")
    (if b then Sub false (fun s => Ret (JObj [("items", s)])) else Ret (JBool true)) in
  let g := new_gen (St := unit) (Settings "/$defs" (Some "urn:m") [] false Deserialize) tt in
  ~ In "/$defs" ["//"; "#//"] /\
  option_map fst (run info 3 (Root true (fun d => Ret d)) g)
  = Some (JObj [("$defs", JObj [("F", JBool true)]); ("$schema", JStr "urn:m");
                ("items", new_ref "#/$defs/F"); ("title", JStr "T")]).
Proof.
  split; [|vm_compute; reflexivity]. intros [E|[E|[]]]; discriminate.
Qed.

(** ** C18: the spellings of the definitions path *)
(** A JSON pointer (RFC 6901) with the given reference tokens *)
Fixpoint pointer_text (ts : list string) : string :=
  match ts with
  | [] => ""
  | t :: ts' => (String "/" (ptr_escape t) ++ pointer_text ts')%string
  end.

Lemma strip_suffix_app s : strip_suffix_slash (s ++ "/") = s.
Proof.
  induction s as [|a s IH]; [reflexivity|].
  cbn [append strip_suffix_slash]. rewrite IH. destruct s; reflexivity.
Qed.
Lemma strip_suffix_noslash s t : no_slash t = true -> t <> "" -> strip_suffix_slash (s ++ t) = (s ++ t)%string.
Proof.
  intros N D. induction s as [|a s IH].
  - cbn [append]. induction t as [|a t IH]; [contradiction|].
    cbn in N. apply andb_prop in N as [N1 N2]. destruct t as [|b t].
    + cbn. destruct (Ascii.eqb a "/"); [discriminate|reflexivity].
    + cbn [strip_suffix_slash]. cbn [strip_suffix_slash] in IH. rewrite IH; [reflexivity|exact N2|discriminate].
  - cbn [append strip_suffix_slash]. rewrite IH. destruct (s ++ t)%string eqn:Q; [|reflexivity].
    destruct s; cbn in Q; [contradiction|discriminate].
Qed.
Lemma split_pointer ts : split_on "/" (pointer_text ts) = ("", map ptr_escape ts).
Proof.
  assert (A : forall s r, no_slash s = true -> (r = "" \/ exists r', r = String "/" r') ->
     split_on "/" (s ++ r) = (s, snd (split_on "/" r))).
  { induction s as [|a s IH]; intros r N R.
    - destruct R as [->|[r' ->]]; [reflexivity|]. cbn. destruct (split_on "/" r'); reflexivity.
    - cbn in N. apply andb_prop in N as [N1 N2]. cbn. rewrite (IH r N2 R).
      destruct (Ascii.eqb a "/"); [discriminate|reflexivity]. }
  induction ts as [|t ts IH]; [reflexivity|].
  cbn [pointer_text append split_on map]. rewrite A; [|apply no_slash_escape|].
  - cbn. now rewrite IH.
  - destruct ts; [now left|right; eexists; reflexivity].
Qed.
Lemma pointer_text_snoc ts t : pointer_text (ts ++ [t]) = (pointer_text ts ++ String "/" (ptr_escape t))%string.
Proof.
  induction ts as [|u ts IH]; cbn [pointer_text app]; [now rewrite sapp_nil_r|].
  rewrite IH. cbn [append]. now rewrite sapp_assoc.
Qed.
Lemma ptr_escape_nonempty t : t <> "" -> ptr_escape t <> "".
Proof. destruct t as [|a t]; [contradiction|]. intros _. cbn. destruct (Ascii.eqb a "~"), (Ascii.eqb a "/"); discriminate. Qed.

(** The definitions path may be written with or without a leading '#' and with or without a
    trailing '/': C18_definitions_placed and C18_rest_untouched then speak of the place the
    pointer denotes. *)
Theorem C18_path_spellings : forall ts t path,
  t <> "" ->
  In path [pointer_text (ts ++ [t]); String "#" (pointer_text (ts ++ [t]));
           (pointer_text (ts ++ [t]) ++ "/")%string; String "#" (pointer_text (ts ++ [t]) ++ "/")] ->
  good_path path /\ path_tokens path = (ts ++ [t])%list /\ definitions_path_stripped path = pointer_text (ts ++ [t]).
Proof.
  intros ts t path T I.
  assert (P : exists r, pointer_text (ts ++ [t]) = String "/" r /\ r <> "").
  { destruct ts as [|u ts]; cbn [app pointer_text append]; eexists; (split; [reflexivity|]).
    - rewrite sapp_nil_r. now apply ptr_escape_nonempty.
    - rewrite pointer_text_snoc. destruct (ptr_escape u); [destruct (pointer_text ts)|]; discriminate. }
  assert (S : strip_suffix_slash (pointer_text (ts ++ [t])) = pointer_text (ts ++ [t])).
  { rewrite pointer_text_snoc.
    change (pointer_text ts ++ String "/" (ptr_escape t))%string with (pointer_text ts ++ ("/" ++ ptr_escape t))%string.
    rewrite <- sapp_assoc. apply strip_suffix_noslash; [apply no_slash_escape|now apply ptr_escape_nonempty]. }
  assert (D : definitions_path_stripped path = pointer_text (ts ++ [t])).
  { unfold definitions_path_stripped.
    destruct P as (r & P & _). rewrite P in *.
    destruct I as [<-|[<-|[<-|[<-|[]]]]].
    - exact S.
    - exact S.
    - cbn [append strip_prefix_hash Ascii.eqb]. exact (strip_suffix_app (String "/" r)).
    - exact (strip_suffix_app (String "/" r)). }
  destruct P as (r & P & R).
  refine (conj _ (conj _ D)).
  - exists r. now rewrite D.
  - unfold path_tokens. rewrite D, split_pointer. cbn [snd]. rewrite map_map.
    rewrite <- (map_id (ts ++ [t])) at 2. apply map_ext. apply unescape_escape.
Qed.
Print Assumptions C18_path_spellings.
Example C18_path_spellings_example :
  pointer_text ["components"; "a/b~"] = "/components/a~1b~0".
Proof. reflexivity. Qed.
