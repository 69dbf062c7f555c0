(** When the items of attributes are accepted: the errors reported by [populate] *)
From Coq Require Import String Ascii List Bool Lia.
From Verif Require Import Json JsonFacts Transform TransformProofs SchemaApi Private Rustdoc Attrs CommonAttrs CommonFacts.
Import ListNotations.
Open Scope string_scope.

Lemma app_nil_iff {A} (a b : list A) : (a ++ b)%list = [] <-> a = [] /\ b = [].
Proof. split; [apply app_eq_nil|intros [-> ->]; reflexivity]. Qed.

(** ** Handlers *)
Definition takes (names : list string) (m : meta) : bool := match m_name m with Some n => mem n names | None => false end.

Section Rest.
Context {A : Type}.
Variable h : handler A.
Variable names : list string.
Hypothesis HT : forall n s a, h n s a = None <-> ~ In n names.

Lemma parse_rest ms : forall a, fst (fst (parse_meta h ms a)) = filter (fun m => negb (takes names m)) ms.
Proof.
  induction ms as [|[[n|] p s] ms IH]; intros a; [reflexivity|..]; cbn [parse_meta filter m_name m_shape takes].
  - destruct (h n s a) as [[a' e]|] eqn:EH.
    + assert (HI : mem n names = true).
      { destruct (mem n names) eqn:EM; [reflexivity|]. assert (HN : h n s a = None); [|congruence]. apply HT. intros HI. apply mem_In in HI. congruence. }
      rewrite HI. cbn [negb]. rewrite <- (IH a'). now destruct (parse_meta h ms a') as [[? ?] ?].
    + assert (HI : mem n names = false) by (apply not_true_iff_false; intros HI; apply mem_In in HI; now apply HT in EH).
      rewrite HI. cbn [negb]. rewrite <- (IH a). now destruct (parse_meta h ms a) as [[? ?] ?].
  - cbn [negb]. rewrite <- (IH a). now destruct (parse_meta h ms a) as [[? ?] ?].
Qed.

Lemma parse_untouched ms : forall a, (forall m, In m ms -> takes names m = false) -> snd (parse_meta h ms a) = [] /\ snd (fst (parse_meta h ms a)) = a.
Proof.
  induction ms as [|[[n|] p s] ms IH]; intros a HM; [split; reflexivity|..]; cbn [parse_meta m_name m_shape].
  - pose proof (HM _ (or_introl eq_refl)) as HN. cbn in HN. assert (EH : h n s a = None) by (apply HT; intros HI; apply mem_In in HI; congruence).
    rewrite EH. specialize (IH a (fun m Hm => HM m (or_intror Hm))). now destruct (parse_meta h ms a) as [[? ?] ?].
  - specialize (IH a (fun m Hm => HM m (or_intror Hm))). now destruct (parse_meta h ms a) as [[? ?] ?].
Qed.
End Rest.

Lemma shapes_cons n k p s ms : shapes n (Meta k p s :: ms) = if named n (Meta k p s) then s :: shapes n ms else shapes n ms.
Proof. unfold shapes. cbn [filter]. now destruct (named n _). Qed.

(** At most one item is left for a slot, and it has to be right *)
Definition slot {A} (o : option A) (good : shape -> Prop) (l : list shape) : Prop :=
  match o with Some _ => l = [] | None => l = [] \/ exists s, l = [s] /\ good s end.
Definition has_value (s : shape) : Prop := exists e, s = SValue e.

(** Keys without repetitions, and none of them used *)
Definition new_keys (w l : list (string * json)) : Prop := NoDup (map fst l) /\ forall k, In k (map fst l) -> ~ In k (map fst w).
Lemma add_extensions_clean l : forall acc, snd (add_extensions l acc) = [] <-> new_keys acc l.
Proof.
  induction l as [|[k v] l IH]; intros acc; cbn [add_extensions].
  { split; [|reflexivity]. intros _. split; [constructor|intros k []]. }
  destruct (existsb _ acc) eqn:EX.
  - apply existsb_key in EX. destruct (add_extensions l acc). cbn. split; [discriminate|]. intros [_ H]. exfalso. apply (H k); [now left|exact EX].
  - rewrite IH. assert (HN : ~ In k (map fst acc)) by (intros HI; apply existsb_key in HI; congruence).
    unfold new_keys. rewrite map_app. cbn [map fst]. split.
    + intros [H1 H2]. split.
      * constructor; [|exact H1]. intros HI. apply (H2 k HI). apply in_or_app. right. now left.
      * intros c [<-|Hc]; [exact HN|]. intros HI. apply (H2 c Hc). apply in_or_app. now left.
    + intros [H1 H2]. inversion H1; subst. split; [assumption|]. intros c Hc. rewrite in_app_iff. intros [HI|[<-|[]]]; [|contradiction].
      apply (H2 c); [now right|exact HI].
Qed.
Lemma new_keys_app w a b : new_keys w (a ++ b)%list <-> new_keys w a /\ new_keys (keep_first w a) b.
Proof.
  revert w. induction a as [|[k v] a IH]; intros w; cbn [app keep_first].
  { split; [intros H; split; [split; [constructor|intros c []]|exact H]|now intros [_ H]]. }
  destruct (existsb _ w) eqn:EX.
  - apply existsb_key in EX. split; [|intros [[_ H] _]]; [intros [_ H]|]; exfalso; apply (H k); auto; now left.
  - assert (HN : ~ In k (map fst w)) by (intros HI; apply existsb_key in HI; congruence).
    assert (HC : forall l, new_keys w ((k, v) :: l) <-> new_keys (w ++ [(k, v)])%list l).
    { intros l. pose proof (add_extensions_clean ((k, v) :: l) w) as H1. cbn [add_extensions] in H1. rewrite EX in H1.
      pose proof (add_extensions_clean l (w ++ [(k, v)])%list) as H2. tauto. }
    rewrite !HC. apply IH.
Qed.

Lemma parsed_clean parses n s : snd (value_parsed parses n s) = [] <-> exists t, s = SValue (ELit t) /\ parses t = true.
Proof.
  unfold value_parsed, value_lit. split.
  - destruct s as [|[t|]| |]; cbn; try discriminate. destruct (parses t) eqn:EP; [eauto|discriminate].
  - intros (t & -> & HP). cbn. now rewrite HP.
Qed.
Lemma parsed_some parses n s : snd (value_parsed parses n s) = [] -> exists t, fst (value_parsed parses n s) = Some t.
Proof. intros H. destruct (proj1 (parsed_clean _ _ _) H) as (t & -> & HP). unfold value_parsed. cbn. rewrite HP. now exists t. Qed.

Section Errors.
Variables parses_path parses_expr parses_type : string -> bool.
Notation common_meta := (common_meta parses_path parses_expr).
Notation with_meta := (with_meta parses_path parses_type).
Notation container_meta := (container_meta parses_path parses_type).

(** ** The common items *)
Definition good_example (s : shape) : Prop := exists e, s = SValue e /\ forall t, e = ELit t -> parses_path t = false.
Definition good_transform (s : shape) : Prop := exists e, s = SValue e /\ forall t, e = ELit t -> parses_expr t = false.
Definition good_extend (s : shape) : Prop := exists l, s = SList (Some l).

Record common_ok (a : common) (ms : list meta) : Prop := {
  co_title : slot (c_title a) has_value (shapes "title" ms);
  co_description : slot (c_description a) has_value (shapes "description" ms);
  co_example : Forall good_example (shapes "example" ms);
  co_extend : Forall good_extend (shapes "extend" ms);
  co_keys : new_keys (c_extensions a) (extend_args ms);
  co_transform : Forall good_transform (shapes "transform" ms) }.

Lemma slot_step {A} (o : option A) (f : expr -> A) (good : shape -> Prop) s l : (forall e, good (SValue e)) -> (forall s, good s -> has_value s) ->
  slot o good (s :: l) <-> match o with Some _ => False | None => exists e, s = SValue e /\ slot (Some (f e)) good l end.
Proof.
  intros HG HV. unfold slot. destruct o; [split; [discriminate|tauto]|]. split.
  - intros [H|(s' & [= -> ->] & H)]; [discriminate|]. destruct (HV _ H) as (e & ->). eauto.
  - intros (e & -> & ->). right. eauto.
Qed.

Lemma extend_args_cons n p s ms : extend_args (Meta (Some n) p s :: ms) =
  ((if String.eqb n "extend" then match s with SList (Some l) => l | _ => [] end else []) ++ extend_args ms)%list.
Proof.
  unfold extend_args. rewrite shapes_cons. cbn [named m_name]. destruct (String.eqb n "extend"); reflexivity.
Qed.

Lemma common_step n p s a a' e ms : common_meta FromSchemars n s a = Some (a', e) ->
  (e = [] /\ common_ok a' ms <-> common_ok a (Meta (Some n) p s :: ms)).
Proof.
  unfold CommonAttrs.common_meta. destruct a as [t d x w r]. unfold duplicate. cbn [is_schemars].
  assert (HX : forall a ms, common_ok a ms <-> (slot (c_title a) has_value (shapes "title" ms) /\ slot (c_description a) has_value (shapes "description" ms)
    /\ Forall good_example (shapes "example" ms) /\ Forall good_extend (shapes "extend" ms) /\ new_keys (c_extensions a) (extend_args ms) /\ Forall good_transform (shapes "transform" ms))).
  { intros b l. split; [intros []; auto 10|intros (?&?&?&?&?&?); now constructor]. }
  rewrite !HX. clear HX. rewrite !shapes_cons, extend_args_cons. cbn [named m_name].
  assert (HV : forall e, has_value (SValue e)) by (intros; eexists; reflexivity).
  destruct (String.eqb_spec n "title") as [->|H1].
  { cbn [String.eqb Ascii.eqb Bool.eqb c_title c_description c_examples c_extensions c_transforms app].
    rewrite (slot_step t (fun e => e)) by auto. destruct t as [t|].
    - intros [= <- <-]. split; [intros [H _]; discriminate|tauto].
    - destruct s; cbn [value_expr]; intros [= <- <-]; cbn [c_title c_description c_examples c_extensions c_transforms];
        (split; [intros [H HC]; try discriminate H; intuition eauto|]); intros ((e' & HE & HS) & HC); try discriminate HE.
      injection HE as <-. tauto. }
  destruct (String.eqb_spec n "description") as [->|H2].
  { cbn [String.eqb Ascii.eqb Bool.eqb c_title c_description c_examples c_extensions c_transforms app].
    rewrite (slot_step d (fun e => e)) by auto. destruct d as [d|].
    - intros [= <- <-]. split; [intros [H _]; discriminate|tauto].
    - destruct s; cbn [value_expr]; intros [= <- <-]; cbn [c_title c_description c_examples c_extensions c_transforms];
        (split; [intros [H HC]; try discriminate H; intuition eauto|]); intros (HC1 & (e' & HE & HS) & HC); try discriminate HE.
      injection HE as <-. tauto. }
  destruct (String.eqb_spec n "example") as [->|H3].
  { cbn [String.eqb Ascii.eqb Bool.eqb app].
    assert (HG : forall l, Forall good_example (s :: l) <-> good_example s /\ Forall good_example l) by (intros; split; [inversion 1; auto|now intros [? ?]; constructor]).
    rewrite HG. destruct s as [|[l|tx v f]| |]; cbn [value_expr]; intros [= <- <-]; cbn [c_title c_description c_examples c_extensions c_transforms app];
      try (split; [intros [H _]; discriminate H|intros (_ & _ & ((e' & HE & _) & _) & _); discriminate HE]).
    - assert (HE : good_example (SValue (ELit l)) <-> parses_path l = false).
      { split; [intros (e & [= <-] & H); now apply H|]. intros H. exists (ELit l). split; [reflexivity|]. now intros t' [= <-]. }
      rewrite HE. destruct (parses_path l); intuition discriminate.
    - assert (HE : good_example (SValue (ECode tx v f))) by (eexists; split; [reflexivity|discriminate]). tauto. }
  destruct (String.eqb_spec n "extend") as [->|H4].
  { cbn [String.eqb Ascii.eqb Bool.eqb].
    assert (HG : forall l, Forall good_extend (s :: l) <-> good_extend s /\ Forall good_extend l) by (intros; split; [inversion 1; auto|now intros [? ?]; constructor]).
    rewrite HG, new_keys_app. destruct (extensions_of "extend" s) as [l er] eqn:EE. cbn [c_extensions].
    pose proof (add_extensions_fst l w) as HF. pose proof (add_extensions_clean l w) as HC.
    destruct (add_extensions l w) as [l' er']. cbn [fst snd] in HF, HC. intros [= <- <-]. cbn [c_title c_description c_examples c_extensions c_transforms].
    rewrite app_nil_iff, HC, HF.
    destruct s as [| |[l0|]|]; cbn in EE; injection EE as <- <-;
      try (split; [intros [[H _] _]; discriminate H|intros (_ & _ & _ & ((e' & HE) & _) & _); discriminate HE]).
    assert (HE : good_extend (SList (Some l0))) by (eexists; reflexivity). tauto. }
  destruct (String.eqb_spec n "transform") as [->|H5]; [|discriminate].
  cbn [String.eqb Ascii.eqb Bool.eqb app].
  assert (HG : forall l, Forall good_transform (s :: l) <-> good_transform s /\ Forall good_transform l) by (intros; split; [inversion 1; auto|now intros [? ?]; constructor]).
  rewrite HG. destruct s as [|[l|tx v f]| |]; cbn [value_expr]; intros [= <- <-]; cbn [c_title c_description c_examples c_extensions c_transforms app];
    try (split; [intros [H _]; discriminate H|intros (_ & _ & _ & _ & _ & (e' & HE & _) & _); discriminate HE]).
  - assert (HE : good_transform (SValue (ELit l)) <-> parses_expr l = false).
    { split; [intros (e & [= <-] & H); now apply H|]. intros H. exists (ELit l). split; [reflexivity|]. now intros t' [= <-]. }
    rewrite HE. destruct (parses_expr l); intuition discriminate.
  - assert (HE : good_transform (SValue (ECode tx v f))) by (eexists; split; [reflexivity|discriminate]). tauto.
Qed.

Lemma common_other m a ms : takes common_names m = false -> (common_ok a (m :: ms) <-> common_ok a ms).
Proof.
  intros H. assert (HN : forall n, In n common_names -> named n m = false).
  { intros n Hn. unfold takes in H. unfold named. destruct (m_name m) as [k|]; [|reflexivity]. apply String.eqb_neq. intros ->.
    apply mem_In in Hn. congruence. }
  assert (HS : forall n, In n common_names -> shapes n (m :: ms) = shapes n ms) by (intros n Hn; unfold shapes; cbn [filter]; now rewrite HN).
  split; intros [C1 C2 C3 C4 C5 C6]; (split; [rewrite HS in * by (cbn; tauto)|..]);
    unfold extend_args in *; rewrite ?HS in * by (cbn; tauto); auto.
Qed.

Lemma common_clean ms : forall a, snd (parse_meta (common_meta FromSchemars) ms a) = [] <-> common_ok a ms.
Proof.
  induction ms as [|[[n|] p s] ms IH]; intros a; cbn [parse_meta m_name m_shape].
  - split; [intros _|reflexivity]. split; try apply Forall_nil; [destruct (c_title a); cbn; auto|destruct (c_description a); cbn; auto|].
    split; [constructor|intros k []].
  - destruct (common_meta FromSchemars n s a) as [[a' e]|] eqn:EH.
    + rewrite <- (common_step _ p _ _ _ _ ms EH), <- IH. destruct (parse_meta _ ms a') as [[? ?] ?]. cbn. apply app_nil_iff.
    + rewrite common_other, <- IH; [now destruct (parse_meta _ ms a) as [[? ?] ?]|]. apply common_meta_none in EH.
      unfold takes. cbn [m_name]. apply not_true_iff_false. intros HM. now apply mem_In in HM.
  - rewrite common_other, <- IH by reflexivity. now destruct (parse_meta _ ms a) as [[? ?] ?].
Qed.

(** ** with and schema_with *)
Definition with_names : list string := ["with"; "schema_with"].
Lemma with_none n s w : with_meta true FromSchemars n s w = None <-> ~ In n with_names.
Proof.
  unfold CommonAttrs.with_meta, with_names. cbn [is_schemars orb]. rewrite !andb_true_r. cbn [In].
  destruct (String.eqb_spec n "with") as [->|]; [split; [discriminate|tauto]|].
  destruct (String.eqb_spec n "schema_with") as [->|]; [split; [discriminate|tauto]|]. split; [intuition congruence|reflexivity].
Qed.

Definition good_type (s : shape) : Prop := exists t, s = SValue (ELit t) /\ parses_type t = true.
Definition good_path (s : shape) : Prop := exists t, s = SValue (ELit t) /\ parses_path t = true.
(** Nothing, one type, or one function *)
Definition with_ok (w : option with_attr) (ms : list meta) : Prop :=
  match w with
  | Some _ => shapes "with" ms = [] /\ shapes "schema_with" ms = []
  | None => slot (None : option unit) good_type (shapes "with" ms) /\ slot (None : option unit) good_path (shapes "schema_with" ms)
            /\ (shapes "with" ms = [] \/ shapes "schema_with" ms = [])
  end.

Lemma with_step n p s w w' e ms : with_meta true FromSchemars n s w = Some (w', e) ->
  (e = [] /\ with_ok w' ms <-> with_ok w (Meta (Some n) p s :: ms)).
Proof.
  unfold CommonAttrs.with_meta, with_ok, duplicate, exclusive. cbn [is_schemars orb]. rewrite !andb_true_r, !shapes_cons. cbn [named m_name].
  destruct (String.eqb_spec n "with") as [->|H1].
  - cbn [String.eqb Ascii.eqb Bool.eqb]. destruct w as [[t|f]|].
    + intros [= <- <-]. split; [intros [H _]|intros [H _]]; discriminate.
    + intros [= <- <-]. split; [intros [H _]|intros [H _]]; discriminate.
    + pose proof (parsed_clean parses_type "with" s) as HC. pose proof (parsed_some parses_type "with" s) as HT.
      destruct (value_parsed parses_type "with" s) as [o er]. cbn [fst snd] in *. intros [= <- <-]. split.
      * intros [-> H]. destruct (HT eq_refl) as (t & ->). cbn in H. destruct H as [H2 H3]. rewrite H2, H3. cbn.
        split; [right; exists s; split; [reflexivity|now apply HC]|]. split; [now left|now right].
      * intros ([H|(s' & [= -> HN] & HG)] & HS & [H'|HN']); try discriminate. assert (HE : er = []) by now apply HC. subst er.
        destruct (HT eq_refl) as (t & ->). cbn. auto.
  - destruct (String.eqb_spec n "schema_with") as [->|H2]; [|discriminate]. cbn [String.eqb Ascii.eqb Bool.eqb]. destruct w as [[t|f]|].
    + intros [= <- <-]. split; [intros [H _]|intros [_ H]]; discriminate.
    + intros [= <- <-]. split; [intros [H _]|intros [_ H]]; discriminate.
    + pose proof (parsed_clean parses_path "schema_with" s) as HC. pose proof (parsed_some parses_path "schema_with" s) as HT.
      destruct (value_parsed parses_path "schema_with" s) as [o er]. cbn [fst snd] in *. intros [= <- <-]. split.
      * intros [-> H]. destruct (HT eq_refl) as (t & ->). cbn in H. destruct H as [H2 H3]. rewrite H2, H3. cbn.
        split; [now left|]. split; [right; exists s; split; [reflexivity|now apply HC]|now left].
      * intros (HS & [H|(s' & [= -> HN] & HG)] & [HN'|H']); try discriminate. assert (HE : er = []) by now apply HC. subst er.
        destruct (HT eq_refl) as (t & ->). cbn. auto.
Qed.

Lemma named_takes names n m : In n names -> takes names m = false -> named n m = false.
Proof.
  intros Hn H. unfold takes in H. unfold named. destruct (m_name m) as [k|]; [|reflexivity]. apply String.eqb_neq. intros ->.
  apply mem_In in Hn. congruence.
Qed.
Lemma shapes_skip names n m ms : In n names -> takes names m = false -> shapes n (m :: ms) = shapes n ms.
Proof. intros Hn H. unfold shapes. cbn [filter]. now rewrite (named_takes names n m Hn H). Qed.

Lemma with_clean ms : forall w, snd (parse_meta (with_meta true FromSchemars) ms w) = [] <-> with_ok w ms.
Proof.
  induction ms as [|m ms IH]; intros w.
  - cbn [parse_meta snd]. split; [intros _|reflexivity]. destruct w; cbn; auto.
  - destruct (takes with_names m) eqn:ET.
    + destruct m as [[n|] p s]; [|discriminate]. cbn [parse_meta m_name m_shape].
      destruct (with_meta true FromSchemars n s w) as [[w' e]|] eqn:EH.
      * rewrite <- (with_step _ p _ _ _ _ ms EH), <- IH. destruct (parse_meta _ ms w') as [[? ?] ?]. cbn. apply app_nil_iff.
      * exfalso. apply with_none in EH. apply EH. unfold takes in ET. cbn [m_name] in ET. now apply mem_In in ET.
    + unfold with_ok. rewrite !(shapes_skip with_names) by (cbn; tauto). fold (with_ok w ms). rewrite <- IH. destruct m as [[n|] p s]; cbn [parse_meta m_name m_shape].
      * replace (with_meta true FromSchemars n s w) with (@None (option with_attr * list error)); [now destruct (parse_meta _ ms w) as [[? ?] ?]|].
        symmetry. apply with_none. intros HI. unfold takes in ET. cbn [m_name] in ET. apply mem_In in HI. congruence.
      * now destruct (parse_meta _ ms w) as [[? ?] ?].
Qed.

Lemma shapes_filter n names ms : ~ In n names -> shapes n (filter (fun m => negb (takes names m)) ms) = shapes n ms.
Proof.
  intros HN. unfold shapes. f_equal. induction ms as [|m ms IH]; [reflexivity|]. cbn [filter].
  destruct (takes names m) eqn:ET; cbn [negb filter]; [|now rewrite IH].
  destruct (named n m) eqn:EN; [|exact IH]. exfalso. unfold named, takes in *. destruct (m_name m) as [k|]; [|discriminate].
  apply String.eqb_eq in EN. subst k. apply HN. now apply mem_In.
Qed.

(** ** Unknown items *)
Lemma unknown_nil ms : unknown ms = [] <-> forall m, In m ms -> is_serde_keyword m = true.
Proof.
  unfold unknown. induction ms as [|m ms IH]; cbn [filter map]; [split; [intros _ m []|reflexivity]|].
  destruct (is_serde_keyword m) eqn:EK; cbn [negb].
  - rewrite IH. split; [intros H x [<-|Hx]; auto|intros H x Hx; apply H; now right].
  - cbn. split; [discriminate|]. intros H. rewrite (H m (or_introl eq_refl)) in EK. discriminate.
Qed.

(** ** Serde attributes *)
(** The items of the serde attribute that is interpreted (C49): they have the names serde knows, and
    the modules given with "with" are written as string literals that could be types. *)
Definition serde_items (ds : list meta) : Prop := forall m, In m ds -> exists n, m_name m = Some n /\ In n serde_keywords /\ (n = "with" -> good_type (m_shape m)).

Lemma serde_common ds a : serde_items ds -> parse_meta (common_meta FromSerde) ds a = (ds, a, []).
Proof.
  intros H. assert (HT : forall m, In m ds -> takes common_names m = false).
  { intros m Hm. destruct (H m Hm) as (n & HN & HK & _). unfold takes. rewrite HN. cbn in HK.
    repeat (destruct HK as [<-|HK]; [reflexivity|]). destruct HK. }
  pose proof (parse_rest _ _ (common_meta_none parses_path parses_expr FromSerde) ds a) as H1.
  destruct (parse_untouched _ _ (common_meta_none parses_path parses_expr FromSerde) ds a HT) as [H2 H3].
  destruct (parse_meta (common_meta FromSerde) ds a) as [[r b] e]. cbn in H1, H2, H3. subst.
  f_equal. f_equal. clear H. induction ds as [|m ds IH]; [reflexivity|]. cbn. rewrite (HT m (or_introl eq_refl)). cbn. f_equal. apply IH. intros x Hx. apply HT. now right.
Qed.

Lemma serde_with ds : serde_items ds -> forall w, snd (parse_meta (with_meta true FromSerde) ds w) = [].
Proof.
  induction ds as [|m ds IH]; intros H w; [reflexivity|]. destruct (H m (or_introl eq_refl)) as (n & HN & _ & HG).
  cbn [parse_meta]. rewrite HN. unfold CommonAttrs.with_meta at 1. cbn [is_schemars orb andb]. rewrite andb_false_r, andb_true_r.
  assert (IH' := IH (fun x Hx => H x (or_intror Hx))).
  destruct (String.eqb_spec n "with") as [->|].
  - destruct w as [[t|f]|].
    + specialize (IH' (Some (WType t))). destruct (parse_meta _ ds _) as [[? ?] ?]. exact IH'.
    + specialize (IH' (Some (WFunction f))). destruct (parse_meta _ ds _) as [[? ?] ?]. exact IH'.
    + pose proof (proj2 (parsed_clean parses_type "with" (m_shape m)) (HG eq_refl)) as HE.
      destruct (value_parsed parses_type "with" (m_shape m)) as [o er]. cbn in HE. subst er.
      specialize (IH' (option_map WType o)). destruct (parse_meta _ ds _) as [[? ?] ?]. exact IH'.
  - specialize (IH' w). destruct (parse_meta _ ds w) as [[? ?] ?]. exact IH'.
Qed.

(** ** Fields and variants *)
Definition known (names : list string) (ms : list meta) : Prop :=
  forall m, In m ms -> exists n, m_name m = Some n /\ In n names.

Lemma rest_known names ms : unknown (filter (fun m => negb (takes names m)) ms) = [] <-> known (names ++ parsed_by_serde) ms.
Proof.
  rewrite unknown_nil. unfold known. split.
  - intros H m Hm. destruct (takes names m) eqn:ET.
    + unfold takes in ET. destruct (m_name m) as [n|]; [|discriminate]. exists n. split; [reflexivity|]. apply in_or_app. left. now apply mem_In.
    + assert (HI : In m (filter (fun m => negb (takes names m)) ms)) by (apply filter_In; now rewrite ET).
      specialize (H m HI). unfold is_serde_keyword in H. destruct (m_name m) as [n|]; [|discriminate]. exists n. split; [reflexivity|]. apply in_or_app. right. now apply mem_In.
  - intros H m Hm. apply filter_In in Hm as [Hm HT]. destruct (H m Hm) as (n & HN & HI). unfold takes, is_serde_keyword in *. rewrite HN in *.
    apply in_app_iff in HI as [HI|HI]; apply mem_In in HI; [|exact HI]. rewrite HI in HT. discriminate.
Qed.
Lemma takes_app a b m : takes (a ++ b) m = takes a m || takes b m.
Proof.
  unfold takes. destruct (m_name m) as [n|]; [|reflexivity]. apply Bool.eq_iff_eq_true. rewrite orb_true_iff, !mem_In. apply in_app_iff.
Qed.
Lemma filter_takes a b ms : filter (fun m => negb (takes b m)) (filter (fun m => negb (takes a m)) ms) = filter (fun m => negb (takes (a ++ b)%list m)) ms.
Proof.
  induction ms as [|m ms IH]; [reflexivity|]. cbn [filter]. rewrite takes_app.
  destruct (takes a m); cbn [negb orb]; [exact IH|]. cbn [filter]. destruct (takes b m); cbn [negb]; [exact IH|]. now rewrite IH.
Qed.
Lemma validation_none n s u : validation_meta n s u = None <-> ~ In n validation_names.
Proof. unfold validation_meta. rewrite <- mem_In. destruct (mem n validation_names); split; congruence || discriminate || reflexivity. Qed.

Lemma field_clean ms ds : serde_items ds ->
  snd (field_attrs parses_path parses_expr parses_type ms ds) = []
  <-> common_ok no_common ms /\ with_ok None ms /\ known (common_names ++ validation_names ++ with_names ++ parsed_by_serde) ms.
Proof.
  intros HD. unfold field_attrs, populate.
  pose proof (common_clean ms no_common) as C1. pose proof (parse_rest _ _ (common_meta_none parses_path parses_expr FromSchemars) ms no_common) as R1.
  destruct (parse_meta (common_meta FromSchemars) ms no_common) as [[s1 c1] e1]. cbn in C1, R1. rewrite (serde_common ds c1 HD).
  pose proof (parse_rest _ _ validation_none s1 tt) as R2.
  destruct (parse_meta validation_meta s1 tt) as [[s2 u] e2]. cbn [fst] in R2. cbn [app].
  pose proof (with_clean s2 None) as C3. pose proof (parse_rest _ _ with_none s2 None) as R3.
  destruct (parse_meta (with_meta true FromSchemars) s2 None) as [[s3 w1] e3]. cbn [fst snd] in C3, R3.
  pose proof (serde_with ds HD w1) as C4. destruct (parse_meta (with_meta true FromSerde) ds w1) as [[s4 w2] e4]. cbn [snd] in C4 |- *. subst e4.
  rewrite !app_nil_iff, C1, C3. subst s1 s2 s3. rewrite !filter_takes, rest_known.
  unfold with_ok. rewrite !shapes_filter by (apply (fun x => proj1 (not_true_iff_false _) x) || (intros HI; apply mem_In in HI; discriminate HI)).
  rewrite <- !app_assoc. tauto.
Qed.

Lemma variant_clean ms ds : serde_items ds ->
  snd (variant_attrs parses_path parses_expr parses_type ms ds) = []
  <-> common_ok no_common ms /\ with_ok None ms /\ known (common_names ++ with_names ++ parsed_by_serde) ms.
Proof.
  intros HD. unfold variant_attrs, populate.
  pose proof (common_clean ms no_common) as C1. pose proof (parse_rest _ _ (common_meta_none parses_path parses_expr FromSchemars) ms no_common) as R1.
  destruct (parse_meta (common_meta FromSchemars) ms no_common) as [[s1 c1] e1]. cbn in C1, R1. rewrite (serde_common ds c1 HD).
  cbn [app].
  pose proof (with_clean s1 None) as C3. pose proof (parse_rest _ _ with_none s1 None) as R3.
  destruct (parse_meta (with_meta true FromSchemars) s1 None) as [[s3 w1] e3]. cbn [fst snd] in C3, R3.
  pose proof (serde_with ds HD w1) as C4. destruct (parse_meta (with_meta true FromSerde) ds w1) as [[s4 w2] e4]. cbn [snd] in C4 |- *. subst e4.
  rewrite !app_nil_iff, C1, C3. subst s1 s3. rewrite !filter_takes, rest_known.
  unfold with_ok. rewrite !shapes_filter by (intros HI; apply mem_In in HI; discriminate HI).
  rewrite <- !app_assoc. tauto.
Qed.
(** ** Containers *)
Definition container_names : list string := ["crate"; "rename"; "inline"; "with"; "schema_with"; "_unstable_ref_variants"].
Lemma container_none en n s a : container_meta en FromSchemars n s a = None <-> ~ In n container_names.
Proof.
  unfold CommonAttrs.container_meta, container_names. cbn [In is_schemars]. rewrite !andb_true_r.
  destruct (String.eqb_spec n "crate") as [->|]; [split; [discriminate|tauto]|].
  destruct (String.eqb_spec n "rename") as [->|]; [split; [discriminate|tauto]|].
  destruct (String.eqb_spec n "inline") as [->|]; [split; [discriminate|tauto]|].
  change (with_meta false FromSchemars) with (with_meta true FromSchemars).
  pose proof (with_none n s (k_with a)) as HW. destruct (with_meta true FromSchemars n s (k_with a)) as [[w e]|].
  - split; [discriminate|]. intros H. exfalso. assert (HX : ~ In n with_names) by (cbn; intros HX; apply H; tauto). apply HW in HX. discriminate.
  - destruct (String.eqb_spec n "_unstable_ref_variants") as [->|]; [split; [discriminate|tauto]|].
    split; [intros _|reflexivity]. assert (HX := proj1 HW eq_refl). cbn in HX. intuition congruence.
Qed.
Lemma container_serde_none en n s a : container_meta en FromSerde n s a = None <-> ~ In n ["crate"; "inline"].
Proof.
  unfold CommonAttrs.container_meta. cbn [In is_schemars]. rewrite !andb_false_r.
  destruct (String.eqb_spec n "crate") as [->|]; [split; [discriminate|tauto]|].
  destruct (String.eqb_spec n "inline") as [->|]; [split; [discriminate|tauto]|].
  unfold CommonAttrs.with_meta. cbn [is_schemars orb]. rewrite !andb_false_r. split; [intuition congruence|reflexivity].
Qed.

Definition good_lit (s : shape) : Prop := exists t, s = SValue (ELit t).
(** A flag: written at most once, without a value *)
Definition flag (b : bool) (l : list shape) : Prop := if b then l = [] else l = [] \/ l = [SPath].
(** `!inline` and `!_unstable_ref_variants` are errors of their own (C49) *)
Definition no_unset (ms : list meta) : Prop := forall m, In m ms -> takes ["inline"; "_unstable_ref_variants"] m = true -> m_shape m <> SNot.

Record container_ok (en : bool) (a : container) (ms : list meta) : Prop := {
  kt_crate : slot (k_crate a) good_path (shapes "crate" ms);
  kt_rename : slot (k_rename a) good_lit (shapes "rename" ms);
  kt_inline : flag (k_inline a) (shapes "inline" ms);
  kt_with : with_ok (k_with a) ms;
  kt_ref : if en then flag (k_ref_variants a) (shapes "_unstable_ref_variants" ms) else shapes "_unstable_ref_variants" ms = [] }.

Lemma lit_step {A} (o : option A) (good : shape -> Prop) (f : string -> A) s l (r : option string) (e : list error) :
  (e = [] <-> good s) -> (e = [] -> exists t, r = Some t) ->
  (slot o good (s :: l) <-> match o with Some _ => False | None => e = [] /\ slot (option_map f r) good l end).
Proof.
  intros HE HR. unfold slot. destruct o; [split; [discriminate|tauto]|]. split.
  - intros [H|(s' & [= -> ->] & H)]; [discriminate|]. apply HE in H. destruct (HR H) as (t & ->). cbn. auto.
  - intros [H HS]. destruct (HR H) as (t & ->). cbn in HS. subst l. right. exists s. split; [reflexivity|now apply HE].
Qed.
Lemma flag_step b n s l : s <> SNot ->
  (flag b (s :: l) <-> if b then False else snd (path_only n s) = [] /\ flag (fst (path_only n s)) l).
Proof.
  intros HN. unfold flag. destruct b; [split; [discriminate|tauto]|]. destruct s; cbn; try congruence; (split; [|intros [H HL]]); try discriminate.
  - intros [H|[= ->]]; [discriminate|auto].
  - subst l. now right.
  - intros [H|H]; discriminate.
  - intros [H|H]; discriminate.
Qed.

Lemma with_ok_other n p s w ms : ~ In n with_names -> (with_ok w (Meta (Some n) p s :: ms) <-> with_ok w ms).
Proof.
  intros HN. unfold with_ok. rewrite !(shapes_skip with_names); try (cbn; tauto); unfold takes; cbn [m_name];
    apply not_true_iff_false; intros HI; now apply mem_In in HI.
Qed.

Lemma container_step en n p s a a' e ms : (takes ["inline"; "_unstable_ref_variants"] (Meta (Some n) p s) = true -> s <> SNot) ->
  container_meta en FromSchemars n s a = Some (a', e) ->
  (e = [] /\ container_ok en a' ms <-> container_ok en a (Meta (Some n) p s :: ms)).
Proof.
  intros HN. unfold CommonAttrs.container_meta. destruct a as [c r i v w]. unfold duplicate. cbn [is_schemars]. rewrite !andb_true_r.
  assert (HX : forall a ms, container_ok en a ms <-> (slot (k_crate a) good_path (shapes "crate" ms) /\ slot (k_rename a) good_lit (shapes "rename" ms)
    /\ flag (k_inline a) (shapes "inline" ms) /\ with_ok (k_with a) ms /\ if en then flag (k_ref_variants a) (shapes "_unstable_ref_variants" ms) else shapes "_unstable_ref_variants" ms = [])).
  { intros b l. split; [intros []; auto 10|intros (?&?&?&?&?); now constructor]. }
  rewrite !HX. clear HX. cbn [k_crate k_rename k_inline k_with k_ref_variants]. rewrite !shapes_cons. cbn [named m_name].
  destruct (String.eqb_spec n "crate") as [->|N1].
  { cbn [String.eqb Ascii.eqb Bool.eqb]. rewrite with_ok_other by (cbn; intuition discriminate).
    rewrite (lit_step c good_path (fun t => t) s _ (fst (value_parsed parses_path "crate" s)) (snd (value_parsed parses_path "crate" s)));
      [|apply parsed_clean|apply parsed_some].
    destruct c as [c|]; [intros [= <- <-]; split; [intros [H _]; discriminate|tauto]|].
    destruct (value_parsed parses_path "crate" s) as [o er]. cbn [fst snd]. intros [= <- <-]. cbn [k_crate k_rename k_inline k_with k_ref_variants].
    replace (option_map (fun t : string => t) o) with o by (now destruct o). tauto. }
  destruct (String.eqb_spec n "rename") as [->|N2].
  { cbn [String.eqb Ascii.eqb Bool.eqb]. rewrite with_ok_other by (cbn; intuition discriminate).
    rewrite (lit_step r good_lit (fun t => t) s _ (fst (value_lit "rename" s)) (snd (value_lit "rename" s))).
    2:{ unfold value_lit, good_lit. destruct s as [|[t|]| |]; cbn; split; try discriminate; eauto; intros (t' & HT); discriminate. }
    2:{ unfold value_lit. destruct s as [|[t|]| |]; cbn; try discriminate. intros _. now exists t. }
    destruct r as [r|]; [intros [= <- <-]; split; [intros [H _]; discriminate|tauto]|].
    destruct (value_lit "rename" s) as [o er]. cbn [fst snd]. intros [= <- <-]. cbn [k_crate k_rename k_inline k_with k_ref_variants].
    replace (option_map (fun t : string => t) o) with o by (now destruct o). tauto. }
  destruct (String.eqb_spec n "inline") as [->|N3].
  { cbn [String.eqb Ascii.eqb Bool.eqb]. rewrite with_ok_other by (cbn; intuition discriminate).
    rewrite (flag_step i "inline") by now apply HN.
    destruct i; [intros [= <- <-]; split; [intros [H _]; discriminate|tauto]|].
    destruct (path_only "inline" s) as [b er]. cbn [fst snd]. intros [= <- <-]. cbn [k_crate k_rename k_inline k_with k_ref_variants]. tauto. }
  change (with_meta false FromSchemars) with (with_meta true FromSchemars).
  destruct (with_meta true FromSchemars n s w) as [[w' er]|] eqn:EW.
  { intros [= <- <-]. cbn [k_crate k_rename k_inline k_with k_ref_variants]. rewrite <- (with_step _ p _ _ _ _ ms EW).
    assert (HNr : String.eqb n "_unstable_ref_variants" = false).
    { apply String.eqb_neq. intros ->. discriminate EW. }
    rewrite HNr. tauto. }
  apply with_none in EW. destruct (String.eqb_spec n "_unstable_ref_variants") as [->|N4]; [|discriminate].
  rewrite with_ok_other by exact EW. destruct en; cbn [negb].
  - rewrite (flag_step v "_unstable_ref_variants") by now apply HN.
    destruct v; [intros [= <- <-]; split; [intros [H _]; discriminate|tauto]|].
    destruct (path_only "_unstable_ref_variants" s) as [b er]. cbn [fst snd]. intros [= <- <-]. cbn [k_crate k_rename k_inline k_with k_ref_variants]. tauto.
  - intros [= <- <-]. split; [intros [H _]; discriminate|]. intros (_ & _ & _ & _ & H). discriminate.
Qed.

Lemma container_other en m a ms : takes container_names m = false -> (container_ok en a (m :: ms) <-> container_ok en a ms).
Proof.
  intros H. assert (HS : forall n, In n container_names -> shapes n (m :: ms) = shapes n ms) by (intros n Hn; now apply (shapes_skip container_names)).
  split; intros [C1 C2 C3 C4 C5]; unfold with_ok in *; rewrite ?HS in * by (cbn; tauto); constructor; unfold with_ok; rewrite ?HS by (cbn; tauto); assumption.
Qed.

Lemma container_clean_from en ms : no_unset ms -> forall a, snd (parse_meta (container_meta en FromSchemars) ms a) = [] <-> container_ok en a ms.
Proof.
  induction ms as [|m ms IH]; intros HU a.
  - cbn [parse_meta snd]. split; [intros _|reflexivity]. split.
    + destruct (k_crate a); cbn; auto.
    + destruct (k_rename a); cbn; auto.
    + destruct (k_inline a); cbn; auto.
    + destruct (k_with a); cbn; auto.
    + destruct en, (k_ref_variants a); cbn; auto.
  - specialize (IH (fun x Hx => HU x (or_intror Hx))). destruct (takes container_names m) eqn:ET.
    + destruct m as [[n|] p s]; [|discriminate]. cbn [parse_meta m_name m_shape].
      destruct (container_meta en FromSchemars n s a) as [[a' e]|] eqn:EH.
      * rewrite <- (container_step _ _ p _ _ _ _ ms (HU _ (or_introl eq_refl)) EH), <- IH. destruct (parse_meta _ ms a') as [[? ?] ?]. cbn [snd]. apply app_nil_iff.
      * exfalso. apply container_none in EH. apply EH. unfold takes in ET. cbn [m_name] in ET. now apply mem_In in ET.
    + rewrite container_other by exact ET. rewrite <- IH. destruct m as [[n|] p s]; cbn [parse_meta m_name m_shape].
      * replace (container_meta en FromSchemars n s a) with (@None (container * list error)); [now destruct (parse_meta _ ms a) as [[? ?] ?]|].
        symmetry. apply container_none. intros HI. unfold takes in ET. cbn [m_name] in ET. apply mem_In in HI. congruence.
      * now destruct (parse_meta _ ms a) as [[? ?] ?].
Qed.

Lemma container_clean en ms ds : serde_items ds -> no_unset ms ->
  snd (container_attrs parses_path parses_expr parses_type en ms ds) = []
  <-> common_ok no_common ms /\ container_ok en no_container ms /\ known (common_names ++ container_names ++ parsed_by_serde) ms.
Proof.
  intros HD HU. unfold container_attrs, populate.
  pose proof (common_clean ms no_common) as C1. pose proof (parse_rest _ _ (common_meta_none parses_path parses_expr FromSchemars) ms no_common) as R1.
  destruct (parse_meta (common_meta FromSchemars) ms no_common) as [[s1 c1] e1]. cbn in C1, R1. rewrite (serde_common ds c1 HD).
  assert (HU1 : no_unset s1) by (rewrite R1; intros m Hm; apply HU; apply filter_In in Hm; tauto).
  pose proof (container_clean_from en s1 HU1 no_container) as C3. pose proof (parse_rest _ _ (container_none en) s1 no_container) as R3.
  destruct (parse_meta (container_meta en FromSchemars) s1 no_container) as [[s3 w1] e3]. cbn [fst snd] in C3, R3.
  assert (C4 : snd (parse_meta (container_meta en FromSerde) ds w1) = []).
  { apply (parse_untouched _ _ (container_serde_none en)). intros m Hm. destruct (HD m Hm) as (n & HN & HK & _). unfold takes. rewrite HN. cbn in HK.
    repeat (destruct HK as [<-|HK]; [reflexivity|]). destruct HK. }
  destruct (parse_meta (container_meta en FromSerde) ds w1) as [[s4 w2] e4]. cbn [snd] in C4 |- *. subst e4. cbn [app].
  rewrite !app_nil_iff, C1, C3. subst s1 s3. rewrite !filter_takes, rest_known.
  assert (HC : container_ok en no_container (filter (fun m => negb (takes common_names m)) ms) <-> container_ok en no_container ms).
  { split; intros [K1 K2 K3 K4 K5]; unfold with_ok in *; rewrite ?shapes_filter in * by (intros HI; apply mem_In in HI; discriminate HI);
      constructor; unfold with_ok; rewrite ?shapes_filter by (intros HI; apply mem_In in HI; discriminate HI); assumption. }
  rewrite HC, <- !app_assoc. tauto.
Qed.
(** ** What accepted items say *)
Definition lits (n : string) (ms : list meta) : list string :=
  flat_map (fun s => match s with SValue (ELit t) => [t] | _ => [] end) (shapes n ms).
Definition with_source (ms ds : list meta) : option with_attr :=
  match lits "with" ms, lits "schema_with" ms, lits "with" ds with
  | t :: _, _, _ => Some (WType t)
  | [], f :: _, _ => Some (WFunction f)
  | [], [], t :: _ => Some (WType t)
  | [], [], [] => None
  end.

Lemma lits_cons n m ms : lits n (m :: ms) = ((if named n m then match m_shape m with SValue (ELit t) => [t] | _ => [] end else []) ++ lits n ms)%list.
Proof. destruct m as [k p x]. unfold lits. rewrite shapes_cons. cbn [m_shape]. now destruct (named n _). Qed.
Lemma lits_skip names n m ms : takes names m = false -> In n names -> lits n (m :: ms) = lits n ms.
Proof. intros H1 H2. unfold lits. now rewrite (shapes_skip names). Qed.
Lemma lits_none n ms : shapes n ms = [] -> lits n ms = [].
Proof. unfold lits. now intros ->. Qed.

Lemma with_result ms : forall w, with_ok w ms -> snd (fst (parse_meta (with_meta true FromSchemars) ms w))
  = match w with Some x => Some x | None => with_source ms [] end.
Proof.
  induction ms as [|m ms IH]; intros w HW; [now destruct w|].
  destruct (takes with_names m) eqn:ET.
  - destruct m as [[n|] p s]; [|discriminate]. unfold takes in ET. cbn [m_name] in ET. apply mem_In in ET. cbn [parse_meta m_name m_shape].
    destruct (with_meta true FromSchemars n s w) as [[w' e]|] eqn:EH; [|apply with_none in EH; contradiction].
    pose proof (proj2 (with_step _ p _ _ _ _ ms EH) HW) as [-> HW']. specialize (IH w' HW').
    destruct (parse_meta _ ms w') as [[r a] er]. cbn [fst snd] in *. subst a.
    destruct w as [x|].
    { destruct HW as [H1 H2]. rewrite shapes_cons in H1, H2. cbn [named m_name] in H1, H2. destruct ET as [<-|[<-|[]]]; discriminate. }
    unfold CommonAttrs.with_meta, value_parsed, value_lit in EH. unfold with_source. rewrite !lits_cons. cbn [named m_name m_shape].
    cbn [is_schemars orb] in EH. rewrite !andb_true_r in EH.
    destruct ET as [<-|[<-|[]]]; cbn [String.eqb Ascii.eqb Bool.eqb] in *.
    + destruct s as [|[t|]| |]; try discriminate. destruct (parses_type t); [|discriminate]. injection EH as <-. reflexivity.
    + destruct s as [|[t|]| |]; try discriminate. destruct (parses_path t); [|discriminate]. injection EH as <-. cbn [option_map] in HW' |- *.
      destruct HW' as [H1 H2]. rewrite (lits_none _ _ H1). reflexivity.
  - unfold with_source. rewrite !(lits_skip with_names) by (cbn; tauto). fold (with_source ms []).
    assert (HW' : with_ok w ms) by (unfold with_ok in *; rewrite !(shapes_skip with_names) in HW by (cbn; tauto); exact HW).
    rewrite <- (IH w HW'). destruct m as [[n|] p s]; cbn [parse_meta m_name m_shape].
    + replace (with_meta true FromSchemars n s w) with (@None (option with_attr * list error)); [now destruct (parse_meta _ ms w) as [[? ?] ?]|].
      symmetry. apply with_none. intros HI. unfold takes in ET. cbn [m_name] in ET. apply mem_In in HI. congruence.
    + now destruct (parse_meta _ ms w) as [[? ?] ?].
Qed.

Lemma with_serde ds : serde_items ds -> forall w, snd (fst (parse_meta (with_meta true FromSerde) ds w))
  = match w with Some x => Some x | None => option_map WType (hd_error (lits "with" ds)) end.
Proof.
  induction ds as [|m ds IH]; intros H w; [now destruct w|]. destruct (H m (or_introl eq_refl)) as (n & HN & _ & HG).
  assert (IH' := IH (fun x Hx => H x (or_intror Hx))).
  cbn [parse_meta]. rewrite HN. unfold CommonAttrs.with_meta at 1. cbn [is_schemars orb andb]. rewrite andb_false_r, andb_true_r.
  rewrite lits_cons. unfold named. rewrite HN.
  destruct (String.eqb_spec n "with") as [->|].
  - destruct w as [[t|f]|].
    + specialize (IH' (Some (WType t))). destruct (parse_meta _ ds _) as [[? ?] ?]. exact IH'.
    + specialize (IH' (Some (WFunction f))). destruct (parse_meta _ ds _) as [[? ?] ?]. exact IH'.
    + destruct (HG eq_refl) as (t & HS & HP). rewrite HS. unfold value_parsed, value_lit. rewrite HP.
      specialize (IH' (Some (WType t))). cbn [option_map]. destruct (parse_meta _ ds _) as [[? ?] ?]. exact IH'.
  - specialize (IH' w). cbn [app]. destruct (parse_meta _ ds w) as [[? ?] ?]. exact IH'.
Qed.

Lemma with_source_serde ms ds : with_source ms ds
  = match with_source ms [] with Some x => Some x | None => option_map WType (hd_error (lits "with" ds)) end.
Proof. unfold with_source. destruct (lits "with" ms); [|reflexivity]. destruct (lits "schema_with" ms); [|reflexivity]. now destruct (lits "with" ds). Qed.

Lemma with_source_filter names ms : ~ In "with" names -> ~ In "schema_with" names -> with_source (filter (fun m => negb (takes names m)) ms) [] = with_source ms [].
Proof. intros H1 H2. unfold with_source, lits. now rewrite !shapes_filter. Qed.

Lemma field_source ms ds : serde_items ds -> snd (field_attrs parses_path parses_expr parses_type ms ds) = [] ->
  snd (fst (field_attrs parses_path parses_expr parses_type ms ds)) = with_source ms ds.
Proof.
  intros HD HE. pose proof (proj1 (field_clean ms ds HD) HE) as (_ & HW & _). clear HE. unfold field_attrs, populate.
  pose proof (parse_rest _ _ (common_meta_none parses_path parses_expr FromSchemars) ms no_common) as R1.
  destruct (parse_meta (common_meta FromSchemars) ms no_common) as [[s1 c1] e1]. cbn in R1. rewrite (serde_common ds c1 HD).
  pose proof (parse_rest _ _ validation_none s1 tt) as R2.
  destruct (parse_meta validation_meta s1 tt) as [[s2 u] e2]. cbn [fst] in R2.
  assert (HW2 : with_ok None s2).
  { subst s1 s2. unfold with_ok. rewrite !shapes_filter by (intros HI; apply mem_In in HI; discriminate HI). exact HW. }
  pose proof (with_result s2 None HW2) as C3.
  destruct (parse_meta (with_meta true FromSchemars) s2 None) as [[s3 w1] e3]. cbn [fst snd] in C3.
  pose proof (with_serde ds HD w1) as C4. destruct (parse_meta (with_meta true FromSerde) ds w1) as [[s4 w2] e4]. cbn [fst snd] in *.
  rewrite C4, with_source_serde, C3. subst s1 s2. rewrite !with_source_filter by (intros HI; apply mem_In in HI; discriminate HI). reflexivity.
Qed.
Lemma variant_source ms ds : serde_items ds -> snd (variant_attrs parses_path parses_expr parses_type ms ds) = [] ->
  snd (fst (variant_attrs parses_path parses_expr parses_type ms ds)) = with_source ms ds.
Proof.
  intros HD HE. pose proof (proj1 (variant_clean ms ds HD) HE) as (_ & HW & _). clear HE. unfold variant_attrs, populate.
  pose proof (parse_rest _ _ (common_meta_none parses_path parses_expr FromSchemars) ms no_common) as R1.
  destruct (parse_meta (common_meta FromSchemars) ms no_common) as [[s1 c1] e1]. cbn in R1. rewrite (serde_common ds c1 HD).
  assert (HW2 : with_ok None s1).
  { subst s1. unfold with_ok. rewrite !shapes_filter by (intros HI; apply mem_In in HI; discriminate HI). exact HW. }
  pose proof (with_result s1 None HW2) as C3.
  destruct (parse_meta (with_meta true FromSchemars) s1 None) as [[s3 w1] e3]. cbn [fst snd] in C3.
  pose proof (with_serde ds HD w1) as C4. destruct (parse_meta (with_meta true FromSerde) ds w1) as [[s4 w2] e4]. cbn [fst snd] in *.
  rewrite C4, with_source_serde, C3. subst s1. rewrite !with_source_filter by (intros HI; apply mem_In in HI; discriminate HI). reflexivity.
Qed.

(** The container: items written once are what they say *)
Definition has (n : string) (ms : list meta) : bool := match shapes n ms with [] => false | _ => true end.
Definition container_source (ms : list meta) : container :=
  Container (hd_error (lits "crate" ms)) (hd_error (lits "rename" ms)) (has "inline" ms) (has "_unstable_ref_variants" ms) (with_source ms []).
Definition container_over (a b : container) : container :=
  Container (orelse (k_crate a) (k_crate b)) (orelse (k_rename a) (k_rename b)) (k_inline a || k_inline b)
    (k_ref_variants a || k_ref_variants b) (orelse (k_with a) (k_with b)).

Lemma has_cons n m ms : has n (m :: ms) = named n m || has n ms.
Proof. destruct m as [k p x]. unfold has. rewrite shapes_cons. now destruct (named n _). Qed.

Lemma container_one en n p s a a' ms : (takes ["inline"; "_unstable_ref_variants"] (Meta (Some n) p s) = true -> s <> SNot) ->
  container_meta en FromSchemars n s a = Some (a', []) -> container_ok en a (Meta (Some n) p s :: ms) ->
  container_over a' (container_source ms) = container_over a (container_source (Meta (Some n) p s :: ms)).
Proof.
  intros HN EH [K1 K2 K3 K4 K5].
  rewrite !shapes_cons in K1, K2, K3, K5. cbn [named m_name m_shape] in K1, K2, K3, K5.
  unfold container_over, container_source. rewrite !has_cons, !lits_cons. cbn [named m_name m_shape k_crate k_rename k_inline k_ref_variants k_with].
  unfold CommonAttrs.container_meta in EH. destruct a as [c r i v w]. cbn [k_crate k_rename k_inline k_ref_variants k_with] in *.
  destruct (String.eqb_spec n "crate") as [->|N1].
  { cbn [String.eqb Ascii.eqb Bool.eqb] in *. destruct c as [c|]; [discriminate|]. unfold value_parsed, value_lit in EH.
    destruct s as [|[t|]| |]; try discriminate. destruct (parses_path t); [|discriminate]. injection EH as <-. unfold with_source. rewrite !lits_cons. reflexivity. }
  destruct (String.eqb_spec n "rename") as [->|N2].
  { cbn [String.eqb Ascii.eqb Bool.eqb] in *. destruct r as [r|]; [discriminate|]. unfold value_lit in EH.
    destruct s as [|[t|]| |]; try discriminate. injection EH as <-. unfold with_source. rewrite !lits_cons. reflexivity. }
  destruct (String.eqb_spec n "inline") as [->|N3].
  { cbn [String.eqb Ascii.eqb Bool.eqb] in *. destruct i; [discriminate|]. unfold path_only in EH.
    destruct s as [|[t|]| |]; try discriminate; [|exfalso; now apply HN]. injection EH as <-. unfold with_source. rewrite !lits_cons. reflexivity. }
  change (with_meta false FromSchemars) with (with_meta true FromSchemars) in EH.
  destruct (with_meta true FromSchemars n s w) as [[w' er]|] eqn:EW.
  { injection EH as <- ->. pose proof EW as EW0. unfold CommonAttrs.with_meta in EW. cbn [is_schemars orb] in EW. rewrite !andb_true_r in EW.
    pose proof (proj2 (with_step _ p _ _ _ _ ms EW0) K4) as [_ HW'].
    assert (HW : w = None).
    { destruct (String.eqb n "with"); [destruct w as [[|]|]; [discriminate|discriminate|reflexivity]|].
      destruct (String.eqb n "schema_with"); [destruct w as [[|]|]; [discriminate|discriminate|reflexivity]|discriminate]. }
    subst w. cbn [k_crate k_rename k_inline k_ref_variants k_with].
    pose proof (with_result (Meta (Some n) p s :: ms) None K4) as HR. cbn [parse_meta m_name m_shape] in HR. rewrite EW0 in HR.
    pose proof (with_result ms w' HW') as HR'. destruct (parse_meta _ ms w') as [[? ?] ?]. cbn [fst snd] in HR, HR'. rewrite HR' in HR. clear HR'.
    assert (HNr : String.eqb n "_unstable_ref_variants" = false).
    { apply String.eqb_neq. intros ->. discriminate EW. }
    cbn [orelse]. rewrite <- HR.
    replace (String.eqb n "crate") with false by (symmetry; apply String.eqb_neq; congruence).
    replace (String.eqb n "rename") with false by (symmetry; apply String.eqb_neq; congruence).
    replace (String.eqb n "inline") with false by (symmetry; apply String.eqb_neq; congruence).
    rewrite HNr. now destruct w'. }
  apply with_none in EW. destruct (String.eqb_spec n "_unstable_ref_variants") as [->|N4]; [|discriminate].
  cbn [String.eqb Ascii.eqb Bool.eqb] in *. destruct en; [|discriminate]. destruct v; [discriminate|].
  unfold path_only in EH. destruct s as [|[t|]| |]; try discriminate; [|exfalso; now apply HN]. injection EH as <-. unfold with_source. rewrite !lits_cons. reflexivity.
Qed.

Lemma container_result en ms : no_unset ms -> forall a, container_ok en a ms ->
  snd (fst (parse_meta (container_meta en FromSchemars) ms a)) = container_over a (container_source ms).
Proof.
  induction ms as [|m ms IH]; intros HU a HK.
  { destruct a as [c r i v w]. unfold container_over, container_source. cbn. rewrite !orb_false_r. now destruct c, r, w. }
  assert (HU' : no_unset ms) by (intros x Hx; apply HU; now right).
  destruct (takes container_names m) eqn:ET.
  - destruct m as [[n|] p s]; [|discriminate]. unfold takes in ET. cbn [m_name] in ET. apply mem_In in ET. cbn [parse_meta m_name m_shape].
    destruct (container_meta en FromSchemars n s a) as [[a' e]|] eqn:EH; [|apply container_none in EH; contradiction].
    assert (HN : takes ["inline"; "_unstable_ref_variants"] (Meta (Some n) p s) = true -> s <> SNot) by (intros HT; apply (HU _ (or_introl eq_refl) HT)).
    pose proof (proj2 (container_step _ _ p _ _ _ _ ms HN EH) HK) as [-> HK']. specialize (IH HU' a' HK').
    rewrite <- (container_one _ _ p _ _ _ ms HN EH HK), <- IH. now destruct (parse_meta _ ms a') as [[? ?] ?].
  - assert (HT2 : takes with_names m = false).
    { unfold takes in *. destruct (m_name m) as [n|]; [|reflexivity]. apply not_true_iff_false. intros HI. apply mem_In in HI.
      assert (HC : mem n container_names = true) by (apply mem_In; cbn in HI |- *; tauto). congruence. }
    assert (HK' : container_ok en a ms).
    { destruct HK as [K1 K2 K3 K4 K5]. unfold with_ok in K4. rewrite !(shapes_skip container_names) in K1, K2, K3, K5 by (assumption || (cbn; tauto)).
      rewrite !(shapes_skip with_names) in K4 by (assumption || (cbn; tauto)). constructor; assumption. }
    unfold container_source, has, with_source. rewrite !(shapes_skip container_names), !(lits_skip container_names) by (assumption || (cbn; tauto)).
    fold (with_source ms []). fold (has "inline" ms) (has "_unstable_ref_variants" ms). fold (container_source ms). rewrite <- (IH HU' a HK').
    destruct m as [[n|] p s]; cbn [parse_meta m_name m_shape].
    + replace (container_meta en FromSchemars n s a) with (@None (container * list error)); [now destruct (parse_meta _ ms a) as [[? ?] ?]|].
      symmetry. apply container_none. intros HI. unfold takes in ET. cbn [m_name] in ET. apply mem_In in HI. congruence.
    + now destruct (parse_meta _ ms a) as [[? ?] ?].
Qed.

Lemma container_reads en ms ds : serde_items ds -> no_unset ms -> snd (container_attrs parses_path parses_expr parses_type en ms ds) = [] ->
  snd (fst (container_attrs parses_path parses_expr parses_type en ms ds)) = container_source ms.
Proof.
  intros HD HU HE. pose proof (proj1 (container_clean en ms ds HD HU) HE) as (_ & HK & _). clear HE. unfold container_attrs, populate.
  pose proof (parse_rest _ _ (common_meta_none parses_path parses_expr FromSchemars) ms no_common) as R1.
  destruct (parse_meta (common_meta FromSchemars) ms no_common) as [[s1 c1] e1]. cbn in R1. rewrite (serde_common ds c1 HD).
  assert (HU1 : no_unset s1) by (rewrite R1; intros m Hm; apply HU; apply filter_In in Hm; tauto).
  assert (HF : forall n, ~ In n common_names -> shapes n s1 = shapes n ms) by (intros n Hn; rewrite R1; now apply shapes_filter).
  assert (HK1 : container_ok en no_container s1).
  { destruct HK as [K1 K2 K3 K4 K5]. constructor; unfold with_ok in *; rewrite ?HF by (intros HI; apply mem_In in HI; discriminate HI); assumption. }
  pose proof (container_result en s1 HU1 no_container HK1) as C3.
  destruct (parse_meta (container_meta en FromSchemars) s1 no_container) as [[s3 w1] e3]. cbn [fst snd] in C3.
  assert (C4 : snd (fst (parse_meta (container_meta en FromSerde) ds w1)) = w1).
  { apply (parse_untouched _ _ (container_serde_none en)). intros m Hm. destruct (HD m Hm) as (n & HN & HK' & _). unfold takes. rewrite HN. cbn in HK'.
    repeat (destruct HK' as [<-|HK']; [reflexivity|]). destruct HK'. }
  destruct (parse_meta (container_meta en FromSerde) ds w1) as [[s4 w2] e4]. cbn [fst snd] in *. subst w2. rewrite C3.
  unfold container_over, container_source, has, with_source, lits. rewrite !HF by (intros HI; apply mem_In in HI; discriminate HI). reflexivity.
Qed.
End Errors.
