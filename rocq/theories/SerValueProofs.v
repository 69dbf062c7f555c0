(** Proofs about the schema inferred from a value. *)
From Coq Require Import String Ascii List ZArith NArith Bool Lia DecimalString.
From Verif Require Import Json JsonFacts Utf8 SchemaApi Validate ValidateFacts ValidateKw Private
  PrivateNull PrivateProps PrivateFlatten Transform Generate SerValue ShapeFacts.
Import ListNotations.
Open Scope string_scope.

(** ** Induction over values *)
Definition leaf (v : sval) : bool :=
  match v with
  | VSome _ | VNewtypeStruct _ _ | VNewtypeVariant _ _ | VSeq _ | VTuple _ | VTupleStruct _ _
  | VTupleVariant _ _ | VMap _ | VCollectMap _ | VStruct _ _ | VStructVariant _ _ => false
  | _ => true
  end.
Section Ind.
  Variable P : sval -> Prop.
  Hypothesis Hleaf : forall v, leaf v = true -> P v.
  Hypothesis Hsome : forall v, P v -> P (VSome v).
  Hypothesis Hns : forall n v, P v -> P (VNewtypeStruct n v).
  Hypothesis Hnv : forall n v, P v -> P (VNewtypeVariant n v).
  Hypothesis Hseq : forall l, Forall P l -> P (VSeq l).
  Hypothesis Htup : forall l, Forall P l -> P (VTuple l).
  Hypothesis Hts : forall n l, Forall P l -> P (VTupleStruct n l).
  Hypothesis Htv : forall n l, Forall P l -> P (VTupleVariant n l).
  Hypothesis Hmap : forall l, Forall (fun kv => P (snd kv)) l -> P (VMap l).
  Hypothesis Hcm : forall l, Forall (fun kv => P (snd kv)) l -> P (VCollectMap l).
  Hypothesis Hst : forall n l, Forall (fun kv => P (snd kv)) l -> P (VStruct n l).
  Hypothesis Hsv : forall n l, Forall (fun kv => P (snd kv)) l -> P (VStructVariant n l).
  Fixpoint sval_ind' (v : sval) : P v :=
    let lst := fix go (l : list sval) : Forall P l :=
      match l with [] => Forall_nil _ | x :: t => Forall_cons x (sval_ind' x) (go t) end in
    let ents := fix go (l : list (sval * sval)) : Forall (fun kv => P (snd kv)) l :=
      match l with [] => Forall_nil _ | x :: t => Forall_cons x (sval_ind' (snd x)) (go t) end in
    let flds := fix go (l : list (string * sval)) : Forall (fun kv => P (snd kv)) l :=
      match l with [] => Forall_nil _ | x :: t => Forall_cons x (sval_ind' (snd x)) (go t) end in
    match v with
    | VSome v => Hsome v (sval_ind' v)
    | VNewtypeStruct n v => Hns n v (sval_ind' v)
    | VNewtypeVariant n v => Hnv n v (sval_ind' v)
    | VSeq l => Hseq l (lst l)
    | VTuple l => Htup l (lst l)
    | VTupleStruct n l => Hts n l (lst l)
    | VTupleVariant n l => Htv n l (lst l)
    | VMap l => Hmap l (ents l)
    | VCollectMap l => Hcm l (ents l)
    | VStruct n l => Hst n l (flds l)
    | VStructVariant n l => Hsv n l (flds l)
    | v => Hleaf v eq_refl
    end.
End Ind.

(** ** Lists *)
Lemma omap_F2 {A B} (f : A -> option B) l : forall l', omap f l = Some l' <-> Forall2 (fun x y => f x = Some y) l l'.
Proof.
  induction l as [|x l IH]; intros l'; cbn.
  - split; [intros [= <-]; constructor|]. intros H. inversion H. reflexivity.
  - fold (omap f). split.
    + destruct (f x) eqn:Ex; [|discriminate]. destruct (omap f l) eqn:El; [|discriminate].
      intros [= <-]. constructor; [exact Ex|]. now apply IH.
    + intros H. inversion H as [|? ? ? ? Hx Ht]; subst. apply IH in Ht. now rewrite Hx, Ht.
Qed.

Lemma omap_length {A B} (f : A -> option B) l l' : omap f l = Some l' -> List.length l' = List.length l.
Proof. intros H. apply omap_F2 in H. induction H; cbn; congruence. Qed.

Lemma option_map_some {A B} (f : A -> B) o y : option_map f o = Some y <-> exists x, o = Some x /\ y = f x.
Proof.
  destruct o; cbn; split; try discriminate.
  - intros [= <-]. eauto.
  - intros (x & [= <-] & ->). reflexivity.
  - intros (? & ? & _). discriminate.
Qed.

(** ** The text of map keys *)
(** Characters JSON text escapes *)
Definition plain_char (a : ascii) : bool :=
  let n := N_of_ascii a in negb (N.eqb n 34) && negb (N.eqb n 92) && negb (N.ltb n 32).
Fixpoint plain (s : string) : bool :=
  match s with EmptyString => true | String a s' => plain_char a && plain s' end.

Lemma escape_plain s : plain s = true -> escape_text s = s.
Proof.
  induction s as [|a s IH]; [reflexivity|]. cbn [plain escape_text]. intros H.
  apply andb_true_iff in H as [Ha Hs]. rewrite IH by exact Hs. unfold plain_char in Ha.
  apply andb_true_iff in Ha as [Ha H3]. apply andb_true_iff in Ha as [H1 H2].
  apply negb_true_iff in H1, H2, H3. unfold escape_char. rewrite H1, H2.
  apply N.ltb_ge in H3.
  destruct (N.eqb_spec (N_of_ascii a) 8); [lia|]. destruct (N.eqb_spec (N_of_ascii a) 9); [lia|].
  destruct (N.eqb_spec (N_of_ascii a) 10); [lia|]. destruct (N.eqb_spec (N_of_ascii a) 12); [lia|].
  destruct (N.eqb_spec (N_of_ascii a) 13); [lia|].
  destruct (N.ltb_spec (N_of_ascii a) 32); [lia|]. reflexivity.
Qed.

Definition no_quote (s : string) : Prop := ~ In quote (list_ascii_of_string s).

Lemma plain_no_quote s : plain s = true -> no_quote s.
Proof.
  unfold no_quote. induction s as [|a s IH]; cbn [plain list_ascii_of_string]; [auto|]. intros H.
  apply andb_true_iff in H as [Ha Hs]. intros [Hq|Hq]; [|now apply IH]. subst a. discriminate.
Qed.

Lemma trim_start_id s : no_quote s -> trim_start_q s = s.
Proof.
  destruct s as [|a s]; [reflexivity|]. intros H. cbn [trim_start_q].
  destruct (Ascii.eqb_spec a quote); [|reflexivity]. exfalso. apply H. cbn. auto.
Qed.

Lemma trim_end_id s : no_quote s -> trim_end_q s = s.
Proof.
  induction s as [|a s IH]; [reflexivity|]. intros H.
  assert (Ha : a <> quote) by (intros ->; apply H; cbn; auto).
  assert (Hs : no_quote s) by (intros Hq; apply H; cbn; auto).
  cbn [trim_end_q]. rewrite IH by exact Hs. destruct s; [|reflexivity].
  destruct (Ascii.eqb_spec a quote); congruence.
Qed.

Lemma trim_end_last s : no_quote s -> trim_end_q (s ++ String quote "") = s.
Proof.
  induction s as [|a s IH]; [reflexivity|]. intros H.
  assert (Ha : a <> quote) by (intros ->; apply H; cbn; auto).
  assert (Hs : no_quote s) by (intros Hq; apply H; cbn; auto).
  change ((String a s ++ String quote "")%string) with (String a (s ++ String quote "")).
  cbn [trim_end_q]. rewrite IH by exact Hs. destruct s; [|reflexivity].
  destruct (Ascii.eqb_spec a quote); congruence.
Qed.

Lemma trim_quoted s : plain s = true -> trim_end_q (trim_start_q (quoted s)) = s.
Proof.
  intros H. unfold quoted. rewrite escape_plain by exact H. apply plain_no_quote in H.
  cbn [trim_start_q]. rewrite Ascii.eqb_refl.
  assert (Hx : trim_start_q (s ++ String quote "") = trim_start_q (s ++ String quote "")) by reflexivity.
  destruct s as [|a s]; [reflexivity|].
  change ((String a s ++ String quote "")%string) with (String a (s ++ String quote "")).
  cbn [trim_start_q]. destruct (Ascii.eqb_spec a quote); [exfalso; apply H; cbn; auto|].
  exact (trim_end_last (String a s) H).
Qed.

Lemma uint_no_quote u : no_quote (NilEmpty.string_of_uint u).
Proof.
  unfold no_quote. induction u; cbn; try tauto; intros [H|H]; try (now apply IHu); discriminate.
Qed.

Lemma show_no_quote z : no_quote (show_int z).
Proof.
  unfold show_int, NilZero.string_of_int, NilZero.string_of_uint.
  destruct (Z.to_int z) as [u|u]; destruct u; unfold no_quote; cbn;
    try (intros [H|H]; [discriminate|]; try tauto);
    try (match goal with H : In _ _ |- _ => apply uint_no_quote in H; exact H end).
  all: try (destruct H as [H|H]; [discriminate|]); try tauto; try (apply uint_no_quote in H; exact H).
Qed.

(** Keys whose JSON text is the key itself between quotes *)
Fixpoint plain_key (k : sval) : bool :=
  match k with
  | VStr s | VChar s | VDisplay s => plain s
  | VUnitVariant n => plain n
  | VNewtypeStruct _ v => plain_key v
  | VSome v => plain_key v
  | _ => true
  end.

Lemma key_name_json k : plain_key k = true -> forall n, key_json k = Some n -> key_name k = Some n.
Proof.
  unfold key_name. induction k; cbn [plain_key key_json key_text option_map]; intros HP n'; try discriminate.
  - intros [= <-]. destruct b; reflexivity.
  - intros [= <-]. rewrite trim_start_id, trim_end_id by (apply show_no_quote || (rewrite trim_start_id; apply show_no_quote)). reflexivity.
  - intros [= <-]. now rewrite trim_quoted.
  - intros [= <-]. now rewrite trim_quoted.
  - intros [= <-]. now rewrite trim_quoted.
  - intros [= <-]. now rewrite trim_quoted.
  - intros H. now apply IHk.
Qed.

(** ** The values covered by the theorem *)
(** Floating point numbers are finite, [char]s are one character, bytes fit, and the keys of
    entry-by-entry maps need no escaping. *)
Fixpoint ordinary (v : sval) : bool :=
  match v with
  | VFloat n => match n with Some _ => true | None => false end
  | VChar c => Z.eqb (char_count c) 1
  | VBytes l => forallb (fun b => Z.leb 0 b && Z.leb b 255) l
  | VSome v => ordinary v
  | VNewtypeStruct _ v => ordinary v
  | VNewtypeVariant _ v => ordinary v
  | VSeq l | VTuple l | VTupleStruct _ l | VTupleVariant _ l => forallb ordinary l
  | VMap l => forallb (fun kv => match kv with (a, b) => plain_key a && ordinary b end) l
  | VCollectMap l => forallb (fun kv => match kv with (_, b) => ordinary b end) l
  | VStruct _ l | VStructVariant _ l => forallb (fun kv => match kv with (_, b) => ordinary b end) l
  | _ => true
  end.

Section Sem.
Variable E : env.
Notation ok_ := (valid D2020 E).

Lemma valid_type_schema t v : ok_ (type_schema t) v = type_ok t v.
Proof.
  unfold type_schema, obj. rewrite valid_mk by (constructor; [auto|constructor]).
  cbn [forallb fst snd]. unfold kw. cbn [String.eqb Ascii.eqb Bool.eqb]. rewrite andb_true_r.
  unfold chk_type. cbn. now rewrite orb_false_r.
Qed.

Lemma valid_titled t m v : ok_ (titled t m) v = ok_ (JObj m) v.
Proof.
  unfold titled. destruct (String.eqb t ""); [reflexivity|]. apply valid_annotation;
  intros HH; cbn in HH; repeat (destruct HH as [HH|HH]; [discriminate|]); exact HH.
Qed.

(** ** Sequences *)
Definition good_items (items : list json) : Prop := items = [JBool true] \/ ~ In (JBool true) items.

Lemma seq_closed_good items : good_items items -> seq_closed items = true -> items = [JBool true].
Proof.
  intros [H|H] HC; [exact H|]. destruct items as [|[|[]| | | |] items]; try discriminate.
  exfalso. apply H. now left.
Qed.

Lemma seq_element_good items s : good_items items -> seq_closed items = false -> good_items (seq_element items s).
Proof.
  intros HG HC. unfold seq_element. destruct (json_eqb s (JBool true)) eqn:Es.
  { apply json_eqb_eq in Es. subst. now left. }
  destruct (existsb (json_eqb s) items); [exact HG|]. right.
  destruct HG as [->|HG]; [discriminate|]. rewrite in_app_iff. intros [H|[H|[]]]; [auto|].
  subst s. discriminate.
Qed.

Lemma seq_element_in items s : In s (seq_element items s).
Proof.
  unfold seq_element. destruct (json_eqb s (JBool true)) eqn:Es; [now left|].
  destruct (existsb (json_eqb s) items) eqn:Ex.
  - apply existsb_exists in Ex as (y & Hy & He). apply json_eqb_eq in He. now subst.
  - rewrite in_app_iff. right. now left.
Qed.

Lemma seq_element_incl items s : s <> JBool true -> incl items (seq_element items s).
Proof.
  intros Hs y Hy. unfold seq_element. destruct (json_eqb s (JBool true)) eqn:Es.
  { apply json_eqb_eq in Es. congruence. }
  destruct (existsb (json_eqb s) items); [exact Hy|]. rewrite in_app_iff. now left.
Qed.

Lemma seq_element_only items s y : In y (seq_element items s) -> In y items \/ y = s.
Proof.
  unfold seq_element. destruct (json_eqb s (JBool true)); [intros [H|[]]; auto|].
  destruct (existsb (json_eqb s) items); [auto|]. rewrite in_app_iff. intros [H|[H|[]]]; auto.
Qed.

Definition seq_fold (f : sval -> option json) : list sval -> list json -> option (list json) :=
  ofold (fun items x => if seq_closed items then Some items else option_map (seq_element items) (f x)).

(** Either the schema [true] was met, or each element's schema is among the items; the items are
    the schemas of elements. *)
Lemma seq_fold_spec f l : forall items items', good_items items -> seq_fold f l items = Some items' ->
  (items' = [JBool true] /\ (items = [JBool true] \/ exists x, In x l /\ f x = Some (JBool true)))
  \/ (~ In (JBool true) items' /\ incl items items'
      /\ (forall x, In x l -> exists s, f x = Some s /\ In s items')
      /\ (forall s, In s items' -> In s items \/ exists x, In x l /\ f x = Some s)).
Proof.
  induction l as [|x l IH]; intros items items' HG H.
  - cbn in H. injection H as <-. destruct HG as [->|HG]; [left; auto|]. right.
    split; [exact HG|]. split; [now intros y|]. split; [intros x []|]. auto.
  - unfold seq_fold in H. cbn [ofold] in H. fold (ofold (fun items x => if seq_closed items then Some items else option_map (seq_element items) (f x))) in H.
    fold (seq_fold f) in H.
    destruct (seq_closed items) eqn:EC.
    { apply seq_closed_good in EC; [|exact HG]. subst items.
      destruct (IH [JBool true] items' ltac:(now left) H) as [[-> _]|(HN & HI & _)]; [left; auto|].
      exfalso. apply HN, HI. now left. }
    destruct (f x) as [s|] eqn:Ef; [|discriminate]. cbn [option_map] in H.
    destruct (IH (seq_element items s) items' (seq_element_good _ _ HG EC) H) as [[-> HT]|(HN & HI & HX & HS)].
    + left. split; [reflexivity|]. destruct HT as [HT|(y & Hy & Hf)].
      * assert (HS : In (JBool true) (seq_element items s)) by (rewrite HT; now left).
        apply seq_element_only in HS as [HS|HS].
        -- left. destruct HG as [HG|HG]; [exact HG|contradiction].
        -- right. exists x. split; [now left|congruence].
      * right. exists y. split; [now right|exact Hf].
    + right. assert (Hs : s <> JBool true).
      { intros ->. apply HN, HI, seq_element_in. }
      split; [exact HN|]. split; [intros y Hy; now apply HI, seq_element_incl|]. split.
      * intros y [<-|Hy]; [|auto]. exists s. split; [exact Ef|]. apply HI, seq_element_in.
      * intros y Hy. destruct (HS y Hy) as [Hi|(z & Hz & Hf)].
        -- apply seq_element_only in Hi as [Hi| ->]; [auto|]. right. exists x. split; [now left|exact Ef].
        -- right. exists z. split; [now right|exact Hf].
Qed.

Lemma seq_end_valid items v :
  ok_ (seq_end items) v
  = match v with
    | JArr l => forallb (fun x => match items with [] => true | _ => existsb (fun s => ok_ s x) items end) l
    | _ => false
    end.
Proof.
  unfold seq_end. rewrite valid_items. destruct v as [| | | |l|]; try reflexivity.
  apply forallb_eq. intros x _. destruct items as [|s [|s' items]].
  - reflexivity.
  - cbn. now rewrite orb_false_r.
  - now rewrite valid_anyOf.
Qed.

(** ** collect_map *)
Definition collect_fold (f : sval -> option json) : list (sval * sval) -> option json -> option (option json) :=
  ofold (fun acc kv => if collect_closed acc then Some acc
                       else match kv with (_, b) => option_map (collect_step acc) (f b) end).

Lemma collect_closed_true acc : collect_closed acc = true -> acc = Some (JBool true).
Proof. destruct acc as [[|[]| | | |]|]; try discriminate. reflexivity. Qed.

Lemma collect_fold_spec f l : forall acc acc', collect_fold f l acc = Some acc' ->
  acc' = Some (JBool true)
  \/ ((acc = None \/ acc' = acc)
      /\ (acc' = None -> acc = None /\ l = [])
      /\ forall k x, In (k, x) l -> exists s, f x = Some s /\ acc' = Some s).
Proof.
  induction l as [|[k x] l IH]; intros acc acc' H.
  - cbn in H. injection H as <-. right. split; [auto|]. split; [auto|]. intros k x [].
  - unfold collect_fold in H. cbn [ofold] in H.
    fold (collect_fold f) in H. destruct (collect_closed acc) eqn:EC.
    { apply collect_closed_true in EC. subst acc. destruct (IH _ _ H) as [HT|([?|HT] & _)]; auto. discriminate. }
    destruct (f x) as [s|] eqn:Ef; [|discriminate]. cbn [option_map] in H.
    destruct (IH _ _ H) as [HT|(HA & HN & HX)]; [auto|].
    destruct acc as [s0|].
    + cbn [collect_step] in *. destruct (json_eqb s0 s) eqn:Ee.
      * apply json_eqb_eq in Ee. subst s0. destruct HA as [?|HA]; [discriminate|]. right. split; [auto|].
        split; [intros; congruence|]. intros k' x' [Hk|Hk]; [|eauto]. injection Hk as <- <-. eauto.
      * destruct HA as [?|HA]; [discriminate|]. left. exact HA.
    + cbn [collect_step] in *. right. split; [auto|]. destruct HA as [?|HA]; [discriminate|]. split; [intros; congruence|].
      intros k' x' [Hk|Hk]; [|eauto]. injection Hk as <- <-. eauto.
Qed.

(** ** Objects built in parallel *)
Lemma props_parallel (ps js : list (string * json)) :
  Forall2 (fun p q => fst p = fst q /\ ok_ (snd p) (snd q) = true) ps js ->
  props_ok E (mk ps) (JObj (mk js)) = true.
Proof.
  intros H. unfold props_ok. apply forallb_forall. intros [k x] Hin. cbn [fst snd].
  apply NoDup_mget in Hin; [|apply sorted_NoDup, sorted_mk].
  unfold mk in *. rewrite mget_mappend in *. cbn [mget] in *.
  assert (HR : Forall2 (fun p q => fst p = fst q /\ ok_ (snd p) (snd q) = true) (rev ps) (rev js)).
  { clear -H. induction H; cbn; [constructor|]. apply Forall2_app; [exact IHForall2|]. constructor; [assumption|constructor]. }
  revert HR. generalize dependent (rev ps). generalize dependent (rev js). clear.
  intros b. induction b as [|[kb xb] b IH]; intros Hb a HR; inversion HR as [|[ka xa] ? a' ? [Hk Hv] HR']; subst.
  - reflexivity.
  - cbn [mget fst snd] in *. subst kb. destruct (String.eqb k ka).
    + injection Hb as <-. exact Hv.
    + apply IH; assumption.
Qed.

Lemma is_schema_allow_null s : is_schema s = true -> is_schema (allow_null s) = true.
Proof.
  intros H. destruct s as [|[]| | | |m]; try discriminate; try reflexivity. cbn [allow_null].
  repeat match goal with |- is_schema (if ?b then _ else _) = true => destruct b; try reflexivity end.
  destruct (mget "const" _); [reflexivity|]. destruct (mget "enum" _) as [[]|]; try reflexivity.
  destruct (existsb _ _); reflexivity.
Qed.

Lemma is_schema_ser v : forall b s, ser_schema b v = Some s -> is_schema s = true.
Proof.
  induction v using sval_ind'; intros b s; cbn [ser_schema].
  - destruct v; try discriminate; cbn [ser_schema]; intros [= <-]; reflexivity.
  - rewrite option_map_some. intros (s' & Hs & ->). now apply is_schema_allow_null, (IHv _ _ Hs).
  - rewrite option_map_some. intros (s' & Hs & ->). destruct (b && _); [reflexivity|eauto].
  - intros [= <-]. reflexivity.
  - rewrite option_map_some. intros (? & _ & ->). reflexivity.
  - rewrite option_map_some. intros (? & _ & ->). reflexivity.
  - rewrite option_map_some. intros (? & _ & ->). reflexivity.
  - intros [= <-]. reflexivity.
  - rewrite option_map_some. intros (? & _ & ->). reflexivity.
  - rewrite option_map_some. intros (? & _ & ->). reflexivity.
  - rewrite option_map_some. intros (? & _ & ->). reflexivity.
  - intros [= <-]. reflexivity.
Qed.

Lemma tuple_end_valid t items v :
  ok_ (tuple_end t items) v
  = match v with
    | JArr l => Nat.eqb (List.length l) (List.length items)
                && forallb (fun p => ok_ (fst p) (snd p)) (combine items l)
    | _ => false
    end.
Proof. unfold tuple_end. rewrite valid_titled. apply valid_tuple. Qed.

Lemma map_end_valid t ps v :
  ok_ (map_end t ps) v = match v with JObj o => props_ok E ps (JObj o) | _ => false end.
Proof. unfold map_end. rewrite valid_titled. apply valid_object_props. Qed.

Lemma zip_forall (f : sval -> option json) (g : sval -> option json) l : forall ss js,
  Forall (fun x => forall s j, f x = Some s -> g x = Some j -> ok_ s j = true) l ->
  omap f l = Some ss -> omap g l = Some js ->
  Nat.eqb (List.length js) (List.length ss) && forallb (fun p => ok_ (fst p) (snd p)) (combine ss js) = true.
Proof.
  intros ss js HF Hs Hj. rewrite (omap_length _ _ _ Hs), (omap_length _ _ _ Hj), Nat.eqb_refl. cbn [andb].
  apply omap_F2 in Hs, Hj. revert ss js Hs Hj. induction HF as [|x l Hx HF IH]; intros ss js Hs Hj;
    inversion Hs; subst; inversion Hj; subst; [reflexivity|]. cbn. rewrite (Hx y y0) by assumption. cbn. eauto.
Qed.

(** The main theorem *)
Theorem ser_valid v : (forall z, (0 <= z <= 255)%Z -> e_fmt E "uint8" (JNum (NInt z)) = true) ->
  ordinary v = true -> forall b s j,
  ser_schema b v = Some s -> to_json v = Some j -> ok_ s j = true.
Proof.
  intros HF. induction v using sval_ind'; intros HO b s j.
  - rename HO into HO'. destruct v; try discriminate; cbn [ser_schema to_json ordinary] in *; intros [= <-] Hj.
    + injection Hj as <-. now rewrite valid_type_schema.
    + destruct (fits_number z); [|discriminate]. injection Hj as <-. now rewrite valid_type_schema.
    + destruct n as [[m e]|]; [|discriminate]. injection Hj as <-. now rewrite valid_type_schema.
    + injection Hj as <-. unfold char_schema, obj.
      rewrite valid_mk by (cbn [map fst]; repeat (constructor; [intros HH; cbn in HH; repeat (destruct HH as [HH|HH]; [discriminate|]); exact HH|]); constructor).
      cbn [forallb fst snd]. unfold kw. cbn [String.eqb Ascii.eqb Bool.eqb existsb assertion_names orb].
      unfold assertion. cbn [String.eqb Ascii.eqb Bool.eqb]. rewrite !num_leb_int.
      apply Z.eqb_eq in HO'. rewrite HO'. reflexivity.
    + injection Hj as <-. now rewrite valid_type_schema.
    + injection Hj as <-. now rewrite valid_type_schema.
    + injection Hj as <-. unfold bytes_schema. rewrite valid_items. rewrite forallb_forall in *.
      intros x Hx. apply in_map_iff in Hx as (z & <- & Hz). specialize (HO' z Hz).
      apply andb_true_iff in HO' as [H1 H2]. apply Z.leb_le in H1, H2. unfold u8_schema, obj.
      rewrite valid_mk by (cbn [map fst]; repeat (constructor; [intros HH; cbn in HH; repeat (destruct HH as [HH|HH]; [discriminate|]); exact HH|]); constructor).
      cbn [forallb fst snd]. unfold kw. cbn [String.eqb Ascii.eqb Bool.eqb existsb assertion_names orb].
      unfold assertion. cbn [String.eqb Ascii.eqb Bool.eqb]. rewrite !num_leb_int, HF by lia.
      assert (Z.leb 0 z = true) as -> by (apply Z.leb_le; lia). assert (Z.leb z 255 = true) as -> by (apply Z.leb_le; lia).
      reflexivity.
    + injection Hj as <-. reflexivity.
    + reflexivity.
    + injection Hj as <-. reflexivity.
    + reflexivity.
  - cbn [ser_schema to_json ordinary] in *. rewrite option_map_some. intros (s' & Hs & ->) Hj.
    apply allow_null_mono. eauto.
  - cbn [ser_schema to_json ordinary] in *. rewrite option_map_some. intros (s' & Hs & ->) Hj.
    assert (HV : ok_ s' j = true) by eauto. destruct (b && _); [|exact HV].
    rewrite valid_insert; [exact HV|eapply is_schema_ser; eassumption| |];
    intros HH; cbn in HH; repeat (destruct HH as [HH|HH]; [discriminate|]); exact HH.
  - cbn [ser_schema]. intros [= <-] _. reflexivity.
  - cbn [ser_schema to_json ordinary] in *. rewrite !option_map_some. intros (items & Hs & ->) (js & Hj & ->).
    fold (seq_fold (ser_schema false)) in Hs.
    rewrite seq_end_valid. apply forallb_forall. intros y Hy.
    destruct (seq_fold_spec _ _ _ _ (or_intror (@in_nil _ _) : good_items []) Hs) as [[-> _]|(_ & _ & HX & _)]; [reflexivity|].
    rewrite forallb_forall in HO. rewrite Forall_forall in H.
    apply omap_F2 in Hj.
    assert (HY : exists x, In x l /\ to_json x = Some y).
    { clear -Hj Hy. induction Hj; [destruct Hy|]. destruct Hy as [<-|Hy]; [eexists; split; [now left|assumption]|].
      destruct (IHHj Hy) as (x' & Hx & Hx'). eexists; split; [right; exact Hx|assumption]. }
    destruct HY as (x & Hx & Hxy). destruct (HX x Hx) as (s & Hs' & Hin).
    destruct items as [|s0 items]; [reflexivity|]. apply existsb_exists. exists s. split; [exact Hin|].
    exact (H x Hx (HO x Hx) false s y Hs' Hxy).
  - cbn [ser_schema to_json ordinary] in *. rewrite !option_map_some. intros (ss & Hs & ->) (js & Hj & ->).
    rewrite tuple_end_valid. apply (zip_forall (ser_schema false) to_json l ss js); [|exact Hs|exact Hj].
    rewrite forallb_forall in HO. rewrite Forall_forall in *. intros x Hx s j. apply (H x Hx (HO x Hx) false).
  - cbn [ser_schema to_json ordinary] in *. rewrite !option_map_some. intros (ss & Hs & ->) (js & Hj & ->).
    rewrite tuple_end_valid. apply (zip_forall (ser_schema false) to_json l ss js); [|exact Hs|exact Hj].
    rewrite forallb_forall in HO. rewrite Forall_forall in *. intros x Hx s j. apply (H x Hx (HO x Hx) false).
  - cbn [ser_schema]. intros [= <-] _. reflexivity.
  - cbn [ser_schema to_json ordinary] in *. rewrite !option_map_some. intros (ps & Hs & ->) (js & Hj & ->).
    rewrite map_end_valid. apply props_parallel. apply omap_F2 in Hs, Hj.
    revert ps js Hs Hj. induction H as [|[k x] l Hx HF' IH]; intros ps js Hs Hj;
      inversion Hs; subst; inversion Hj; subst; [constructor|].
    cbn [forallb] in HO. apply andb_true_iff in HO as [HO HO2]. apply andb_true_iff in HO as [HO1 HO].
    constructor; [|apply IH; assumption].
    destruct (key_name k) as [n|] eqn:En; [|discriminate]. destruct (ser_schema false x) as [s|] eqn:Es; [|discriminate].
    destruct (key_json k) as [n'|] eqn:Ek; [|discriminate]. destruct (to_json x) as [jx|] eqn:Ej; [|discriminate].
    apply key_name_json in Ek; [|exact HO1]. rewrite En in Ek. injection Ek as <-.
    repeat match goal with HH : Some _ = Some _ |- _ => injection HH as <- end. cbn [fst snd] in *. split; [reflexivity|]. eauto.
  - cbn [ser_schema to_json ordinary] in *. rewrite !option_map_some. intros (acc & Hs & ->) (js & Hj & ->).
    fold (collect_fold (ser_schema false)) in Hs. unfold collect_end. rewrite valid_object_additional.
    apply forallb_forall. intros [k y] Hy. cbn [snd].
    destruct (collect_fold_spec _ _ _ _ Hs) as [->|(_ & HN & HX)]; [reflexivity|].
    apply omap_F2 in Hj. rewrite forallb_forall in HO. rewrite Forall_forall in H.
    assert (HY : exists a x, In (a, x) l /\ to_json x = Some y).
    { assert (Hy' : In (k, y) js).
      { apply NoDup_mget in Hy; [|apply sorted_NoDup, sorted_mk]. unfold mk in Hy. rewrite mget_mappend in Hy.
        cbn [mget] in Hy. destruct (mget k (rev js)) eqn:Eg; [|discriminate]. apply mget_In in Eg. injection Hy as ->.
        now apply in_rev. }
      clear -Hj Hy'. induction Hj as [|[a x] q l js Hq Hj IH]; [destruct Hy'|]. destruct Hy' as [->|Hy].
      - destruct (key_json a); [|discriminate]. destruct (to_json x) eqn:Ex; [|discriminate]. injection Hq as <- <-.
        exists a, x. split; [now left|exact Ex].
      - destruct (IH Hy) as (a' & x' & Hx & Hx'). exists a', x'. split; [now right|exact Hx']. }
    destruct HY as (a & x & Hx & Hxy). destruct (HX a x Hx) as (s & Hs' & ->).
    apply (H _ Hx (HO _ Hx) _ _ _ Hs' Hxy).
  - cbn [ser_schema to_json ordinary] in *. rewrite !option_map_some. intros (ps & Hs & ->) (js & Hj & ->).
    rewrite map_end_valid. apply props_parallel. apply omap_F2 in Hs, Hj.
    revert ps js Hs Hj. induction H as [|[k x] l Hx HF' IH]; intros ps js Hs Hj;
      inversion Hs; subst; inversion Hj; subst; [constructor|].
    cbn [forallb] in HO. apply andb_true_iff in HO as [HO HO2].
    constructor; [|apply IH; assumption].
    repeat match goal with HH : option_map _ _ = Some _ |- _ => apply option_map_some in HH as (? & ? & ->) end.
    cbn [fst snd] in *. split; [reflexivity|]. eauto.
  - cbn [ser_schema]. intros [= <-] _. reflexivity.
Qed.

End Sem.
