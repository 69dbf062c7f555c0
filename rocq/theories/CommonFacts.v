(** Facts about the metadata attributes: what the items of each name add up to, and when they are
    accepted. *)
From Coq Require Import String Ascii List Bool Lia.
From Verif Require Import Json JsonFacts Transform SchemaApi Private Rustdoc Attrs CommonAttrs.
Import ListNotations.
Open Scope string_scope.

(** ** Items by name *)
Definition named (n : string) (m : meta) : bool := match m_name m with Some k => String.eqb k n | None => false end.
Definition shapes (n : string) (ms : list meta) : list shape := map m_shape (filter (named n) ms).
Definition shape_values (l : list shape) : list expr := flat_map (fun s => match s with SValue e => [e] | _ => [] end) l.
Definition shape_args (l : list shape) : list (string * json) := flat_map (fun s => match s with SList (Some l) => l | _ => [] end) l.
(** The values written for the items of a name, in order *)
Definition values_of (n : string) (ms : list meta) : list expr := shape_values (shapes n ms).
(** The arguments of `extend(...)`, in order *)
Definition extend_args (ms : list meta) : list (string * json) := shape_args (shapes "extend" ms).
Definition is_code (e : expr) : bool := match e with ECode _ _ _ => true | ELit _ => false end.

Lemma shapes_app n a b : shapes n (a ++ b)%list = (shapes n a ++ shapes n b)%list.
Proof. unfold shapes. now rewrite filter_app, map_app. Qed.
Lemma shape_values_app a b : shape_values (a ++ b)%list = (shape_values a ++ shape_values b)%list.
Proof. apply flat_map_app. Qed.
Lemma values_of_app n a b : values_of n (a ++ b)%list = (values_of n a ++ values_of n b)%list.
Proof. unfold values_of. now rewrite shapes_app, shape_values_app. Qed.
Lemma extend_args_app a b : extend_args (a ++ b)%list = (extend_args a ++ extend_args b)%list.
Proof. unfold extend_args, shape_args. now rewrite shapes_app, flat_map_app. Qed.

(** ** Extensions: the first value of each key *)
Fixpoint keep_first (acc l : list (string * json)) : list (string * json) :=
  match l with
  | [] => acc
  | (k, v) :: l' => keep_first (if existsb (fun e => String.eqb (fst e) k) acc then acc else acc ++ [(k, v)])%list l'
  end.
Lemma add_extensions_fst l : forall acc, fst (add_extensions l acc) = keep_first acc l.
Proof.
  induction l as [|[k v] l IH]; intros acc; [reflexivity|]. cbn [add_extensions keep_first].
  destruct (existsb _ acc); [|apply IH]. specialize (IH acc). now destruct (add_extensions l acc).
Qed.
Lemma keep_first_app a b acc : keep_first acc (a ++ b)%list = keep_first (keep_first acc a) b.
Proof. revert acc. induction a as [|[k v] a IH]; intros acc; [reflexivity|]. cbn [app keep_first]. apply IH. Qed.
Lemma existsb_key k (acc : list (string * json)) : existsb (fun e => String.eqb (fst e) k) acc = true <-> In k (map fst acc).
Proof.
  rewrite existsb_exists, in_map_iff. split.
  - intros (e & H1 & H2). apply String.eqb_eq in H2. eauto.
  - intros (e & H1 & H2). exists e. split; [exact H2|]. now apply String.eqb_eq.
Qed.
Lemma mget_app {A} k (a b : list (string * A)) : mget k (a ++ b)%list = match mget k a with Some x => Some x | None => mget k b end.
Proof. induction a as [|[k' x] a IH]; [reflexivity|]. cbn. destruct (String.eqb k k'); auto. Qed.
Lemma mget_keys {A} k (l : list (string * A)) : In k (map fst l) <-> mget k l <> None.
Proof.
  induction l as [|[k' x] l IH]; cbn; [tauto|]. destruct (String.eqb_spec k k') as [->|HN]; [split; [discriminate|now left]|].
  rewrite <- IH. split; [intros [->|H]; [congruence|exact H]|now right].
Qed.
Lemma keep_first_get k l : forall acc, mget k (keep_first acc l) = mget k (acc ++ l)%list.
Proof.
  induction l as [|[k' v] l IH]; intros acc; [now rewrite app_nil_r|]. cbn [keep_first]. rewrite IH.
  destruct (existsb _ acc) eqn:EX.
  - apply existsb_key, mget_keys in EX. rewrite !mget_app. cbn [mget]. destruct (String.eqb_spec k k') as [->|]; [|reflexivity].
    destruct (mget k' acc); [reflexivity|congruence].
  - now rewrite <- app_assoc.
Qed.
Lemma NoDup_snoc {A} (l : list A) x : NoDup l -> ~ In x l -> NoDup (l ++ [x])%list.
Proof.
  intros H HN. induction l as [|y l IH]; [repeat constructor; auto|]. inversion H; subst. cbn. constructor.
  - rewrite in_app_iff. intros [HI|[HI|[]]]; [contradiction|]. subst. apply HN. now left.
  - apply IH; [assumption|]. intros HI. apply HN. now right.
Qed.
Lemma keep_first_nodup l : forall acc, NoDup (map fst acc) -> NoDup (map fst (keep_first acc l)).
Proof.
  induction l as [|[k v] l IH]; intros acc H; [exact H|]. cbn [keep_first]. apply IH.
  destruct (existsb _ acc) eqn:EX; [exact H|]. rewrite map_app. cbn [map fst]. apply NoDup_snoc; [exact H|]. intros HI. apply existsb_key in HI. congruence.
Qed.

(** ** What the common items add up to *)
Section Collect.
Variables parses_path parses_expr : string -> bool.
Notation common_meta := (common_meta parses_path parses_expr).

Definition orelse {A} (a b : option A) : option A := match a with Some _ => a | None => b end.
Definition collected (a : common) (ms : list meta) : common :=
  Common (orelse (c_title a) (hd_error (values_of "title" ms))) (orelse (c_description a) (hd_error (values_of "description" ms)))
    (c_examples a ++ values_of "example" ms) (keep_first (c_extensions a) (extend_args ms))
    (c_transforms a ++ filter is_code (values_of "transform" ms)).

Definition common_names : list string := ["title"; "description"; "example"; "extend"; "transform"].

Lemma common_meta_none o n s a : common_meta o n s a = None <-> ~ In n common_names.
Proof.
  unfold CommonAttrs.common_meta, common_names. cbn [In].
  repeat match goal with |- context [String.eqb n ?k] => destruct (String.eqb_spec n k) as [->|]; [split; [discriminate|intros H; exfalso; apply H; tauto]|] end.
  split; [intros _ H; intuition congruence|reflexivity].
Qed.

Lemma named_self n p s : named n (Meta (Some n) p s) = true.
Proof. cbn. apply String.eqb_refl. Qed.

Lemma collect_step o n p s a a' e : common_meta o n s a = Some (a', e) -> a' = collected a [Meta (Some n) p s].
Proof.
  unfold CommonAttrs.common_meta. destruct a as [t d x w r].
  destruct (String.eqb_spec n "title") as [->|_].
  { cbn [c_title]. destruct t as [t|]; [intros [= <- _]|destruct s; cbn [value_expr]; intros [= <- _]];
      unfold collected, values_of, extend_args; cbn; rewrite ?app_nil_r; destruct d; reflexivity. }
  destruct (String.eqb_spec n "description") as [->|_].
  { cbn [c_description]. destruct d as [d|]; [intros [= <- _]|destruct s; cbn [value_expr]; intros [= <- _]];
      unfold collected, values_of, extend_args; cbn; destruct t; now rewrite ?app_nil_r. }
  destruct (String.eqb_spec n "example") as [->|_].
  { destruct s; cbn [value_expr]; intros [= <- _]; unfold collected, values_of, extend_args; cbn; destruct t, d; now rewrite ?app_nil_r. }
  destruct (String.eqb_spec n "extend") as [->|_].
  { destruct (extensions_of "extend" s) as [l er] eqn:EE. cbn [c_extensions].
    pose proof (add_extensions_fst l w) as HF. destruct (add_extensions l w) as [l' er']. cbn [fst] in HF. intros [= <- _].
    unfold collected, values_of, extend_args. cbn. rewrite !app_nil_r.
    replace (keep_first w match s with SList (Some l0) => l0 | _ => [] end) with l'; [now destruct t, d|].
    rewrite HF. destruct s as [| |[l0|]|]; cbn in EE; injection EE as <- _; reflexivity. }
  destruct (String.eqb_spec n "transform") as [->|_]; [|discriminate].
  destruct s as [|[l|tx v f]| |]; cbn [value_expr]; intros [= <- _]; unfold collected, values_of, extend_args; cbn; destruct t, d; now rewrite ?app_nil_r.
Qed.

Lemma orelse_assoc {A} (a b c : option A) : orelse (orelse a b) c = orelse a (orelse b c).
Proof. now destruct a. Qed.
Lemma hd_error_app {A} (a b : list A) : hd_error (a ++ b)%list = orelse (hd_error a) (hd_error b).
Proof. now destruct a. Qed.
Lemma collected_app a x y : collected a (x ++ y)%list = collected (collected a x) y.
Proof.
  unfold collected. cbn [c_title c_description c_examples c_extensions c_transforms].
  rewrite !values_of_app, extend_args_app, !hd_error_app, !orelse_assoc, keep_first_app, filter_app, <- !app_assoc. reflexivity.
Qed.
Lemma collected_nil a : collected a [] = a.
Proof. destruct a as [t d x w r]. unfold collected. cbn. rewrite !app_nil_r. now destruct t, d. Qed.
Lemma shapes_other n m : named n m = false -> shapes n [m] = [].
Proof. unfold shapes. cbn. now intros ->. Qed.
Lemma collected_other a m : (forall n, In n common_names -> named n m = false) -> collected a [m] = a.
Proof.
  intros H. rewrite <- (collected_nil a) at 2. unfold collected, values_of, extend_args, common_names in *.
  rewrite !shapes_other by (apply H; cbn; tauto). reflexivity.
Qed.

Lemma parse_collect o ms : forall a, snd (fst (parse_meta (common_meta o) ms a)) = collected a ms.
Proof.
  induction ms as [|[[n|] p s] ms IH]; intros a; [now rewrite collected_nil|..]; cbn [parse_meta m_name m_shape];
    change (?m :: ms)%list with ([m] ++ ms)%list; rewrite collected_app.
  - destruct (common_meta o n s a) as [[a' e]|] eqn:EH.
    + rewrite <- (collect_step _ _ p _ _ _ _ EH), <- IH. now destruct (parse_meta _ ms a') as [[? ?] ?].
    + rewrite collected_other, <- IH; [now destruct (parse_meta _ ms a) as [[? ?] ?]|].
      apply common_meta_none in EH. intros k Hk. cbn. apply String.eqb_neq. congruence.
  - rewrite collected_other, <- IH; [now destruct (parse_meta _ ms a) as [[? ?] ?]|reflexivity].
Qed.

Lemma populate_collect {A} val (h : origin -> handler A) start schemars serde :
  fst (fst (populate parses_path parses_expr val h start schemars serde)) = collected no_common (schemars ++ serde).
Proof.
  unfold populate. rewrite collected_app.
  pose proof (parse_collect FromSchemars schemars no_common) as H1. destruct (parse_meta _ schemars no_common) as [[s1 c1] e1]. cbn in H1. subst c1.
  pose proof (parse_collect FromSerde serde (collected no_common schemars)) as H2. destruct (parse_meta _ serde _) as [[d1 c2] e2]. cbn in H2. subst c2.
  destruct (if val then _ else _) as [[s2 ?] ?]. destruct (parse_meta _ s2 _) as [[s3 a1] e3]. destruct (parse_meta _ d1 _) as [[? a2] e4]. reflexivity.
Qed.
End Collect.

(** ** What the statements do *)
(** What the attributes say about the keyword [k]: an extension, else examples, deprecated, or the
    title or description, written explicitly or else in the doc comment, unless it is empty. *)
Definition nonempty (s : string) : option json := if String.eqb s "" then None else Some (JStr s).
Definition text_of (explicit : option expr) (from_doc : option string) : option json :=
  match explicit with Some e => nonempty (expr_text e) | None => match from_doc with Some d => nonempty d | None => None end end.
Definition told (all : list meta) (doc : option (string * string)) (deprecated : bool) (k : string) : option json :=
  match mget k (extend_args all) with
  | Some v => Some v
  | None =>
      if String.eqb k "examples" then match values_of "example" all with [] => None | es => Some (JArr (values es)) end
      else if String.eqb k "deprecated" then if deprecated then Some (JBool true) else None
      else if String.eqb k "description" then text_of (hd_error (values_of "description" all)) (option_map snd doc)
      else if String.eqb k "title" then text_of (hd_error (values_of "title" all)) (option_map fst doc)
      else None
  end.

Lemma ensure_insert k v s : ensure_obj (insert k v s) = mset k v (ensure_obj s).
Proof. reflexivity. Qed.
Lemma get_insert k c v s : mget c (ensure_obj (insert k v s)) = if String.eqb c k then Some v else mget c (ensure_obj s).
Proof. rewrite ensure_insert. apply mget_mset. Qed.

Definition over (f g : string -> option json) (k : string) : option json := match f k with Some v => Some v | None => g k end.
Definition gets (s : json) (k : string) : option json := mget k (ensure_obj s).

Lemma opt_get key v s k : gets (insert_opt key v s) k =
  match (if String.eqb k key then match v with Some v => nonempty v | None => None end else None) with Some x => Some x | None => gets s k end.
Proof.
  unfold insert_opt, insert_metadata, nonempty, gets. destruct v as [v|]; [|now destruct (String.eqb k key)].
  destruct (String.eqb v ""); [now destruct (String.eqb k key)|]. rewrite get_insert. now destruct (String.eqb k key).
Qed.

Lemma fold_insert_get k (l : list (string * json)) : NoDup (map fst l) -> forall s,
  gets (fold_left (fun s kv => insert (fst kv) (snd kv) s) l s) k = match mget k l with Some v => Some v | None => gets s k end.
Proof.
  unfold gets. induction l as [|[c v] l IH]; intros HN s; [reflexivity|]. inversion HN; subst. cbn [fold_left fst snd mget].
  rewrite IH by assumption. rewrite get_insert. destruct (String.eqb_spec k c) as [->|]; [|reflexivity].
  destruct (mget c l) eqn:EM; [|reflexivity]. exfalso. match goal with H : ~ In c _ |- _ => apply H end. apply mget_keys. congruence.
Qed.

Section Mutators.
Variables (all : list meta) (lines : list expr) (deprecated : bool).
Let c := collected no_common all.
Definition doc_parts (lines : list expr) : option (string * string) :=
  match get_doc lines with Some d => get_title_and_description d | None => None end.

Definition before_transforms (s : json) : option json :=
  common_mutators (Common (c_title c) (c_description c) (c_examples c) (c_extensions c) []) (get_doc lines) deprecated s.

Lemma before_get s s' : before_transforms s = Some s' -> forall k, gets s' k = match told all (doc_parts lines) deprecated k with Some v => Some v | None => gets s k end.
Proof.
  intros HB k. unfold before_transforms, common_mutators in HB. cbn [c_title c_description c_examples c_extensions c_transforms fold_left] in HB.
  destruct (title_and_description _ _) as [[t d]|] eqn:ET; [|discriminate]. injection HB as <-.
  rewrite fold_insert_get by (apply keep_first_nodup; constructor).
  rewrite keep_first_get. cbn [app]. unfold told.
  destruct (mget k (extend_args all)); [reflexivity|].
  assert (HE : forall s0, gets match values_of "example" all with [] => s0 | es => insert "examples" (JArr (values es)) s0 end k
    = if String.eqb k "examples" then match values_of "example" all with [] => gets s0 k | es => Some (JArr (values es)) end else gets s0 k).
  { intros s0. destruct (values_of "example" all) as [|e es].
    - now destruct (String.eqb k "examples").
    - unfold gets. rewrite get_insert. reflexivity. }
  assert (HDp : forall s0, gets (if deprecated then insert "deprecated" (JBool true) s0 else s0) k
    = if String.eqb k "deprecated" then if deprecated then Some (JBool true) else gets s0 k else gets s0 k).
  { intros s0. destruct deprecated; [unfold gets; now rewrite get_insert|now destruct (String.eqb k "deprecated")]. }
  assert (HT : match t with Some v => nonempty v | None => None end = text_of (hd_error (values_of "title" all)) (option_map fst (doc_parts lines))
    /\ match d with Some v => nonempty v | None => None end = text_of (hd_error (values_of "description" all)) (option_map snd (doc_parts lines))).
  { unfold title_and_description, c in ET. cbn [collected c_title c_description no_common orelse] in ET. unfold doc_parts in *. unfold text_of.
    destruct (get_doc lines) as [dc|].
    - destruct (get_title_and_description dc) as [[t' d']|].
      + injection ET as <- <-. cbn [option_map fst snd]. split; now destruct (hd_error _).
      + destruct (hd_error (values_of "title" all)), (hd_error (values_of "description" all)); try discriminate. injection ET as <- <-. split; reflexivity.
    - injection ET as <- <-. cbn. split; now destruct (hd_error _). }
  destruct HT as [HT1 HT2]. rewrite HE, HDp, !opt_get, HT1, HT2. clear HE HDp HT1 HT2 ET.
  destruct (String.eqb k "examples") eqn:E1.
  { apply String.eqb_eq in E1. subst k. now destruct (values_of "example" all). }
  destruct (String.eqb k "deprecated") eqn:E2.
  { apply String.eqb_eq in E2. subst k. now destruct deprecated. }
  destruct (String.eqb k "description") eqn:E3; [|reflexivity].
  apply String.eqb_eq in E3. now subst k.
Qed.

Lemma before_id s s' : before_transforms s = Some s' -> (forall k, told all (doc_parts lines) deprecated k = None) -> s' = s.
Proof.
  intros HB HN. unfold before_transforms, common_mutators in HB. cbn [c_title c_description c_examples c_extensions c_transforms fold_left] in HB.
  destruct (title_and_description _ _) as [[t d]|] eqn:ET; [|discriminate]. injection HB as <-.
  assert (HX : extend_args all = []).
  { destruct (extend_args all) as [|[k v] l] eqn:EA; [reflexivity|]. specialize (HN k). unfold told in HN. rewrite EA in HN. cbn in HN. rewrite String.eqb_refl in HN. discriminate. }
  unfold told in HN. rewrite HX in HN. cbn [mget] in HN.
  assert (H1 := HN "examples"). assert (H2 := HN "deprecated"). assert (H3 := HN "description"). assert (H4 := HN "title"). cbn [String.eqb Ascii.eqb Bool.eqb] in H1, H2, H3, H4.
  unfold c. cbn [collected c_examples c_extensions no_common app]. rewrite HX. cbn [keep_first fold_left].
  destruct (values_of "example" all); [|discriminate]. destruct deprecated; [discriminate|].
  unfold title_and_description, c in ET. cbn [collected c_title c_description no_common orelse] in ET. unfold doc_parts, text_of in *.
  assert (HI : forall key v s, nonempty v = None -> insert_opt key (Some v) s = s).
  { intros key v s0. unfold nonempty, insert_opt, insert_metadata. destruct (String.eqb v ""); [reflexivity|discriminate]. }
  assert (HO : forall (key : string) (o : option expr) s, match o with Some e => nonempty (expr_text e) | None => None end = None -> insert_opt key (option_map expr_text o) s = s).
  { intros key [e|] s0; [apply HI|reflexivity]. }
  destruct (get_doc lines) as [dc|].
  - destruct (get_title_and_description dc) as [[t' d']|].
    + injection ET as <- <-. cbn [option_map fst snd] in H3, H4. destruct (hd_error (values_of "title" all)), (hd_error (values_of "description" all)); now rewrite !HI.
    + destruct (hd_error (values_of "title" all)), (hd_error (values_of "description" all)); try discriminate. injection ET as <- <-. now rewrite !HI.
  - injection ET as <- <-. cbn [option_map] in H3, H4. destruct (hd_error (values_of "title" all)), (hd_error (values_of "description" all)); cbn [option_map]; rewrite ?HI by assumption; reflexivity.
Qed.

Definition run_transforms (es : list expr) (s : json) : json :=
  fold_left (fun s e => match e with ECode _ _ f => f s | ELit _ => s end) es s.
Lemma transforms_last s : common_mutators c (get_doc lines) deprecated s = option_map (run_transforms (values_of "transform" all)) (before_transforms s).
Proof.
  unfold before_transforms, common_mutators. destruct c as [t d x w r] eqn:EC. cbn [c_title c_description c_examples c_extensions c_transforms fold_left].
  unfold title_and_description. cbn [c_title c_description].
  assert (HR : forall s, fold_left (fun s e => match e with ECode _ _ f => f s | ELit _ => s end) r s = run_transforms (values_of "transform" all) s).
  { assert (HE : r = filter is_code (values_of "transform" all)) by (unfold c, collected in EC; cbn in EC; now injection EC as _ _ _ _ <-).
    subst r. clear. unfold run_transforms. induction (values_of "transform" all) as [|[l|tx v f] es IH]; intros s; cbn; auto. }
  destruct (match get_doc lines with Some _ => _ | None => _ end) as [[? ?]|]; [|reflexivity]. cbn [option_map]. now rewrite HR.
Qed.
End Mutators.

(** ** Doc comments *)
Lemma get_doc_concat ls : ls <> [] -> get_doc (map (fun l => ELit (String " " l)) ls) = Some (String.concat (String "010" "") ls).
Proof.
  induction ls as [|l ls IH]; [congruence|]. intros _. cbn [map get_doc]. destruct ls as [|l' ls]; [reflexivity|].
  rewrite IH by discriminate. reflexivity.
Qed.
